(** Every error a step returns has a cause (C69). *)
From Coq Require Import Lia.
From Verif Require Import Bytes BytesFacts Utf8 Base64 Num Types World CallbackSpec WorldFacts
  MonadFacts Simple
  OAuth ScramParser Scram Gssapi Session Frame Registry Spec_Simple Spec_History
  Spec_Registry Spec_Order Spec_Errors.
Open Scope m_scope.

Lemma serr_eq_dec (x y : serr) : {x = y} + {x <> y}.
Proof.
  assert (B : forall a b : bytes, {a = b} + {a <> b}) by (apply list_eq_dec, Ascii.ascii_dec).
  pose proof prop_eq_dec. pose proof PeanoNat.Nat.eq_dec. pose proof Ascii.ascii_dec.
  decide equality; repeat (decide equality).
Qed.

Lemma cres_eq_dec (r s : cres) : {r = s} + {r <> s}.
Proof. decide equality. apply serr_eq_dec. Qed.

Section Sound.
Context (C : list wresp -> list event -> list event -> serr -> Prop).

(** What [m] reports has a cause in the sense of [C]. *)
Definition sound_at {L A} (m : M L A) (l : L) (w : world) : Prop :=
  match m l w with
  | (r, _, w') => exists evs, w_trace w' = w_trace w ++ evs /\
      script_left (w_script w) (w_script w') /\
      forall x, r = Err x -> C (w_script w) (w_trace w) evs x
  end.
Definition sound {L A} (m : M L A) : Prop := forall l w, sound_at m l w.

Context (stable : forall s s1 tr e0 evs x,
  script_left s s1 -> C s1 (tr ++ e0) evs x -> C s tr (e0 ++ evs) x).
Context (e : env).
Context (by_app : forall s tr evs x, app_returns e tr evs x -> x <> ECbEarlyReturn -> C s tr evs x).

Lemma sound_pure {L A} (r : res serr A) (m : M L A) l w :
  m l w = (r, l, w) -> (forall x, r = Err x -> C (w_script w) (w_trace w) [] x) -> sound_at m l w.
Proof.
  intros E H. unfold sound_at. rewrite E. exists []. rewrite app_nil_r.
  split; [reflexivity|]. split; [apply script_left_refl|exact H].
Qed.
Lemma sound_ret {L A} (a : A) : sound (@ret L A a).
Proof. intros l w. apply (sound_pure (Ok a)); [reflexivity|discriminate]. Qed.
Lemma sound_fail {L A} x : (forall s tr, C s tr [] x) -> sound (@fail L A x).
Proof. intros H l w. apply (sound_pure (Err x)); [reflexivity|]. intros y [= <-]. apply H. Qed.
Lemma sound_panic {L A} : sound (@panic L A).
Proof. intros l w. apply (sound_pure Panic); [reflexivity|discriminate]. Qed.
Lemma sound_getl {L} : sound (@getl L).
Proof. intros l w. apply (sound_pure (Ok l)); [reflexivity|discriminate]. Qed.
Lemma sound_setl {L} (x : L) : sound (setl x).
Proof.
  intros l w. unfold sound_at, setl. exists []. rewrite app_nil_r.
  split; [reflexivity|]. split; [apply script_left_refl|discriminate].
Qed.
Lemma sound_of_res {L A} (r : res serr A) :
  (forall x, r = Err x -> forall s tr, C s tr [] x) -> sound (@of_res L A r).
Proof. intros H l w. apply (sound_pure r); [reflexivity|]. intros x E. apply H, E. Qed.
Lemma sound_bind_at {L A B} (m : M L A) (f : A -> M L B) l w :
  sound_at m l w ->
  (forall a l1 w1, m l w = (Ok a, l1, w1) -> sound_at (f a) l1 w1) -> sound_at (bind m f) l w.
Proof.
  intros Hm Hf. unfold sound_at, bind in *.
  destruct (m l w) as [[[a|x|] l1] w1].
  - destruct Hm as [e1 [T1 [S1 _]]]. specialize (Hf a l1 w1 eq_refl).
    destruct (f a l1 w1) as [[r l2] w2]. destruct Hf as [e2 [T2 [S2 H2]]].
    exists (e1 ++ e2). split; [rewrite T2, T1, app_assoc; reflexivity|].
    split; [eapply script_left_trans; eauto|].
    intros x E. apply (stable _ (w_script w1)); [exact S1|]. rewrite <- T1. apply H2, E.
  - destruct Hm as [e1 [T1 [S1 H1]]]. exists e1. split; [exact T1|]. split; [exact S1|].
    intros y [= <-]. apply H1. reflexivity.
  - destruct Hm as [e1 [T1 [S1 H1]]]. exists e1. split; [exact T1|]. split; [exact S1|discriminate].
Qed.
Lemma sound_bind {L A B} (m : M L A) (f : A -> M L B) :
  sound m -> (forall a, sound (f a)) -> sound (bind m f).
Proof. intros Hm Hf l w. apply sound_bind_at; [apply Hm|]. intros; apply Hf. Qed.
Lemma sound_locally {L L' A} (l0 : L') (m : M L' A) : sound m -> sound (@locally L L' A l0 m).
Proof.
  intros Hm l w. specialize (Hm l0 w). unfold sound_at, locally in *.
  destruct (m l0 w) as [[[a|x|] l1] w1]; destruct Hm as [evs [T [S H]]]; exists evs;
    (split; [exact T|]); (split; [exact S|]); [discriminate|intros y [= <-]; auto|discriminate].
Qed.
Lemma sound_ignore {L A} (m : M L A) : sound m -> sound (ignore m).
Proof.
  intros Hm l w. specialize (Hm l w). unfold sound_at, ignore in *.
  destruct (m l w) as [[[a|x|] l1] w1]; destruct Hm as [evs [T [S H]]]; exists evs;
    (split; [exact T|]); (split; [exact S|discriminate]).
Qed.
Lemma sound_log {L} ev : sound (@log L ev).
Proof.
  intros l w. exists [ev]. split; [reflexivity|]. split; [apply script_left_refl|discriminate].
Qed.
Lemma sound_draws {L} n : sound (@draws L e n).
Proof.
  induction n as [|n IH]; [apply sound_ret|]. cbn [draws].
  apply sound_bind; [|intros x; apply sound_bind; [exact IH|intros; apply sound_ret]].
  intros l w. exists []. cbn. rewrite app_nil_r. split; [reflexivity|].
  split; [apply script_left_refl|discriminate].
Qed.

(** Writers. *)
Context (by_writer : forall s tr y, writer_failed s y -> C s tr [] (EIo y)).

Lemma writer_failed_left s s1 y : script_left s s1 -> writer_failed s1 y -> writer_failed s y.
Proof.
  intros [u ->] H. destruct y; cbn in *; [apply in_or_app; right; exact H|].
  destruct H as [H|[H1 H]]; [left|right; split; [exact H1|]]; apply in_or_app; right; exact H.
Qed.
Lemma write1_failed b data w :
  match write1 (b :: data) w with
  | (inl y, w') => writer_failed (w_script w) y
  | (inr None, w') => In WInterrupt (w_script w)
  | (inr (Some k), w') => k = 0 -> In (WAccept 0) (w_script w)
  end.
Proof.
  unfold write1. destruct (w_script w) as [|[n|n|] s]; cbn; auto; [discriminate|].
  destruct n; [auto|discriminate].
Qed.
Lemma write1_left data w :
  match write1 data w with (_, w') => script_left (w_script w) (w_script w') end.
Proof.
  pose proof (write1_spec data w) as H. destruct (write1 data w) as [[y|[k|]] w1].
  - apply H.
  - destruct H as [_ [H _]]. apply H.
  - apply H.
Qed.
Lemma write_all_fuel_failed fuel data w x w' :
  write_all_fuel fuel data w = (Err x, w') -> exists y, x = EIo y /\ writer_failed (w_script w) y.
Proof.
  revert data w. induction fuel as [|f IH]; intros data w H; destruct data as [|b d];
    try discriminate. cbn [write_all_fuel] in H.
  pose proof (write1_failed b d w) as K. pose proof (write1_left (b :: d) w) as S.
  destruct (write1 (b :: d) w) as [[y|[[|k]|]] w1].
  - injection H as <- <-. eauto.
  - injection H as <- <-. exists IoWriteZero. split; [reflexivity|]. apply K. reflexivity.
  - destruct (IH _ _ H) as [y [-> Hy]]. exists y. split; [reflexivity|].
    eapply writer_failed_left; eauto.
  - destruct (IH _ _ H) as [y [-> Hy]]. exists y. split; [reflexivity|].
    eapply writer_failed_left; eauto.
Qed.
Lemma vec_inner_failed bufs w :
  match vec_inner bufs w with
  | (inl y, w') => writer_failed (w_script w) y /\ script_left (w_script w) (w_script w')
  | (inr _, w') => script_left (w_script w) (w_script w')
  end.
Proof.
  unfold vec_inner. destruct bufs as [|b0 bufs]; [apply script_left_refl|].
  remember (b0 :: bufs) as bs.
  assert (K : match write1 (concat bs) w with
    | (inl y, w') => writer_failed (w_script w) y
    | (inr None, w') => In WInterrupt (w_script w)
    | (inr (Some k), w') => True end).
  { unfold write1. destruct (w_script w) as [|[n|n|] s]; cbn; auto. }
  pose proof (write1_left (concat bs) w) as S.
  destruct (write1 (concat bs) w) as [[y|[k|]] w1]; [auto| |split; [right; auto|auto]].
  destruct (count_removed bs 0 k) as [n a]. destruct (skipn n bs); exact S.
Qed.
Lemma vec_loop_failed fuel bufs n w x w' :
  vec_loop fuel bufs n w = (Err x, w') -> exists y, x = EIo y /\ writer_failed (w_script w) y.
Proof.
  revert bufs n w. induction fuel as [|f IH]; intros bufs n w H; [discriminate|].
  cbn [vec_loop] in H. pose proof (vec_inner_failed bufs w) as K.
  destruct (vec_inner bufs w) as [[y|[[|len] [|b r]]] w1]; try discriminate.
  - injection H as <- <-. exists y. split; [reflexivity|]. apply K.
  - destruct (IH _ _ _ H) as [y [-> Hy]]. exists y. split; [reflexivity|].
    eapply writer_failed_left; eauto.
Qed.
Lemma sound_write_all {L} data : sound (@write_all L data).
Proof.
  intros l w. destruct (write_all_spec data l w) as [p [q [w' [_ [Hw Hr]]]]].
  unfold sound_at. assert (T : w_trace w' = w_trace w ++ []) by
    (rewrite app_nil_r; apply (wrote_trace _ _ _ Hw)).
  assert (S : script_left (w_script w) (w_script w')) by apply Hw.
  destruct Hr as [[-> _]|[y Hr]]; [exists []; repeat split; auto; discriminate|].
  rewrite Hr. exists []. split; [exact T|]. split; [exact S|]. intros x [= <-].
  unfold write_all in Hr. destruct (write_all_fuel _ data w) as [r w1] eqn:E.
  injection Hr as -> -> . destruct (write_all_fuel_failed _ _ _ _ _ E) as [z [[= ->] Hz]].
  apply by_writer, Hz.
Qed.
Lemma sound_write_all_vectored {L} bufs : sound (@write_all_vectored L bufs).
Proof.
  intros l w. destruct (write_all_vectored_spec bufs l w) as [p [q [w' [_ [Hw Hr]]]]].
  unfold sound_at. assert (T : w_trace w' = w_trace w ++ []) by
    (rewrite app_nil_r; apply (wrote_trace _ _ _ Hw)).
  assert (S : script_left (w_script w) (w_script w')) by apply Hw.
  destruct Hr as [[-> _]|[y Hr]]; [exists []; repeat split; auto; discriminate|].
  rewrite Hr. exists []. split; [exact T|]. split; [exact S|]. intros x [= <-].
  unfold write_all_vectored in Hr. destruct bufs as [|b bufs]; [discriminate|].
  destruct (vec_loop _ (b :: bufs) 0 w) as [r w1] eqn:E.
  injection Hr as -> -> . destruct (vec_loop_failed _ _ _ _ _ _ E) as [z [[= ->] Hz]].
  apply by_writer, Hz.
Qed.
Lemma sound_ob_write_kv {L} kv : sound (@ob_write_kv L kv).
Proof.
  induction kv as [|[k v] r IH]; cbn [ob_write_kv]; [apply sound_ret|].
  apply sound_bind; [apply sound_write_all_vectored|]. intros; exact IH.
Qed.

End Sound.
Arguments sound_at _ {L A}. Arguments sound _ {L A}.

(** * Requests *)

(** [f] never returns NoValue or EarlyReturn, which requests do not pass on. *)
Definition plain_errors {L A} (m : M L A) : Prop :=
  forall l w, fst (fst (m l w)) <> Err ECbNoValue /\ fst (fst (m l w)) <> Err ECbEarlyReturn.

Section Requests.
Context (C : list wresp -> list event -> list event -> serr -> Prop).
Context (stable : forall s s1 tr e0 evs x,
  script_left s s1 -> C s1 (tr ++ e0) evs x -> C s tr (e0 ++ evs) x).
Context (e : env).
Context (by_app : forall s tr evs x, app_returns e tr evs x -> x <> ECbEarlyReturn -> C s tr evs x).

(** What consumers of answers report does not depend on events. *)
Context (D : list wresp -> serr -> Prop).
Context (D_left : forall s s1 x, script_left s s1 -> D s1 x -> D s x).
Context (D_cause : forall s tr evs x, D s x -> x <> ECbNoValue -> C s tr evs x).
Notation DC := (fun s (_ _ : list event) x => D s x).

Definition went (w w' : world) : Prop :=
  (exists evs, w_trace w' = w_trace w ++ evs) /\ script_left (w_script w) (w_script w').
Lemma went_refl w : went w w.
Proof. split; [exists []; rewrite app_nil_r; reflexivity|apply script_left_refl]. Qed.
Lemma went_trans a b c : went a b -> went b c -> went a c.
Proof.
  intros [[x E] S] [[y K] T]. split; [exists (x ++ y); rewrite K, E, app_assoc; reflexivity|].
  eapply script_left_trans; eauto.
Qed.

Lemma went_cr {L G} q (f : pval q -> M L G) st v l w : (forall v, sound DC (f v)) ->
  match cr_satisfy q f st v l w with
  | (r, _, _, w') => went w w' /\ forall x, r = Err x -> D (w_script w) x
  end.
Proof.
  intros Hf. unfold cr_satisfy. destruct st; try (split; [apply went_refl|discriminate]).
  unfold bind, log. specialize (Hf v l (add_event (EvAnswer q v) w)). unfold sound_at in Hf.
  destruct (f v l (add_event (EvAnswer q v) w)) as [[[g|x|] l1] w1];
    destruct Hf as [evs [T [S H]]]; cbn in T, S, H;
    (split; [split; [exists ([EvAnswer q v] ++ evs); rewrite T, app_assoc; reflexivity|exact S]|]);
    [discriminate|intros y [= <-]; auto|discriminate].
Qed.

Lemma went_run {L G} q (f : pval q -> M L G) p st l w : (forall v, sound DC (f v)) ->
  match run_satisfy q f p st l w with
  | (r, _, _, w') => went w w' /\ (forall x, r <> Err x) /\
      forall x, r = Ok (Some x) -> originates p x \/ x = ECbEarlyReturn \/ D (w_script w) x
  end.
Proof.
  intros Hf.
  assert (Step : forall (k : cres -> cbprog) r0 (P : serr -> Prop) w w1 l1 st1,
    went w w1 ->
    match run_satisfy q f (k r0) st1 l1 w1 with
    | (r, _, _, w') => went w1 w' /\ (forall x, r <> Err x) /\ forall x, r = Ok (Some x) ->
        originates (k r0) x \/ x = ECbEarlyReturn \/ D (w_script w1) x end ->
    (forall x, originates (k r0) x -> P x \/ x = ECbEarlyReturn \/ D (w_script w) x) ->
    match run_satisfy q f (k r0) st1 l1 w1 with
    | (r, _, _, w') => went w w' /\ (forall x, r <> Err x) /\ forall x, r = Ok (Some x) ->
        P x \/ x = ECbEarlyReturn \/ D (w_script w) x end).
  { intros k r0 P w0 w1 l1 st1 Hw H HP.
    destruct (run_satisfy q f (k r0) st1 l1 w1) as [[[r st2] l2] w2].
    destruct H as [Hw2 [Hn Hx]]. split; [eapply went_trans; eauto|]. split; [exact Hn|].
    intros x E. destruct (Hx x E) as [H|[H|H]]; [apply HP, H|auto|].
    right. right. eapply D_left; [apply Hw|exact H]. }
  revert st l w. induction p as [r|p v k IH|p c k IH|p k IH|p k IH]; intros st l w;
    cbn [run_satisfy].
  - split; [apply went_refl|]. split; [discriminate|]. intros x [= ->]. left. reflexivity.
  - destruct (castp v) as [v'|].
    + pose proof (went_cr q f st v' l w Hf) as K.
      destruct (cr_satisfy q f st v' l w) as [[[[u|y|] st1] l1] w1]; destruct K as [Kw Kx].
      * apply Step; [exact Kw|apply IH|]. intros x Hx.
        destruct (serr_eq_dec x ECbEarlyReturn); [auto|]. left. exists (Some ECbEarlyReturn).
        split; [congruence|exact Hx].
      * apply Step; [exact Kw|apply IH|]. intros x Hx.
        destruct (serr_eq_dec x y) as [->|]; [right; right; apply Kx; reflexivity|].
        left. exists (Some y). split; [congruence|exact Hx].
      * split; [exact Kw|]. split; discriminate.
    + apply Step; [apply went_refl|apply IH|]. intros x Hx. left. exists None.
      split; [discriminate|exact Hx].
  - destruct (prop_eq_dec p q) as [E|].
    + subst p. assert (Wc : went w (add_event (EvClosure q) w)).
      { split; [exists [EvClosure q]; reflexivity|apply script_left_refl]. }
      destruct c as [y|v].
      * apply Step; [exact Wc|apply IH|]. intros x Hx. left.
        destruct (serr_eq_dec x y) as [->|]; [left; reflexivity|]. right. exists (Some y).
        split; [congruence|exact Hx].
      * destruct (castp v) as [v'|].
        -- pose proof (went_cr q f st v' l (add_event (EvClosure q) w) Hf) as K.
           destruct (cr_satisfy q f st v' l _) as [[[[u|y|] st1] l1] w1]; destruct K as [Kw Kx].
           ++ apply Step; [eapply went_trans; eauto|apply IH|]. intros x Hx.
              destruct (serr_eq_dec x ECbEarlyReturn); [auto|]. left. right.
              exists (Some ECbEarlyReturn). split; [congruence|exact Hx].
           ++ apply Step; [eapply went_trans; eauto|apply IH|]. intros x Hx.
              destruct (serr_eq_dec x y) as [->|]; [right; right; apply Kx; reflexivity|].
              left. right. exists (Some y). split; [congruence|exact Hx].
           ++ split; [eapply went_trans; eauto|]. split; discriminate.
        -- apply Step; [exact Wc|apply IH|]. intros x Hx. left. right. exists None.
           split; [discriminate|exact Hx].
    + apply Step; [apply went_refl|apply IH|]. intros x Hx. left. right. exists None.
      split; [discriminate|exact Hx].
  - specialize (IH None st l w). destruct (run_satisfy q f (k None) st l w) as [[[r st2] l2] w2].
    destruct IH as [A [B H]]. split; [exact A|]. split; [exact B|]. intros x E.
    destruct (H x E) as [K|K]; [left; exists None; exact K|auto].
  - set (b := if prop_eq_dec p q then true else false). specialize (IH b st l w).
    destruct (run_satisfy q f (k b) st l w) as [[[r st2] l2] w2].
    destruct IH as [A [B H]]. split; [exact A|]. split; [exact B|]. intros x E.
    destruct (H x E) as [K|K]; [left; exists b; exact K|auto].
Qed.

(** An optional request: what it reports has a cause, and if it yields nothing the request was
    not answered. *)
Lemma maybe_need_at {L G} q c (f : pval q -> M L G) l w :
  (forall v, sound DC (f v)) ->
  sound_at C (maybe_need_with e q c f) l w /\
  match maybe_need_with e q c f l w with
  | (Ok None, _, w') => (forall v, plain_errors (f v)) ->
      exists evs, w_trace w' = w_trace w ++ evs /\ unanswered e (w_trace w) evs q
  | _ => True
  end.
Proof.
  intros Hf. unfold sound_at.
  destruct (maybe_need_with e q c f l w) as [[r l'] w'] eqn:R.
  assert (T : exists evs2, w_trace w' = w_trace w ++ EvRequest q c :: evs2 /\
    script_left (w_script w) (w_script w') /\
    forall x, r = Err x ->
      x <> ECbEarlyReturn /\ x <> ECbNoValue /\
      (originates (e_cb e (w_trace w) (e_sd e) c (RSatisfy q)) x \/ D (w_script w) x)).
  { unfold maybe_need_with in R.
    pose proof (went_run q f (e_cb e (w_trace w) (e_sd e) c (RSatisfy q)) CrOpen l
      (add_event (EvRequest q c) w) Hf) as K.
    destruct (run_satisfy _ _ _ _ _ _) as [[[r1 st] l1] w1]. destruct K as [[[evs2 T] S] [Hn Hx]].
    cbn in T, S, Hx.
    assert (E : w' = w1) by (destruct r1 as [r1|x|]; [destruct (mask_early r1) as [[]|]|..];
      injection R as <- <- <-; reflexivity).
    subst w1. exists evs2. split; [rewrite T, <- app_assoc; reflexivity|]. split; [exact S|].
    intros x ->. destruct r1 as [r1|y|]; [|exfalso; eapply Hn; reflexivity|discriminate].
    assert (E : r1 = Some x /\ x <> ECbEarlyReturn /\ x <> ECbNoValue).
    { unfold mask_early in R. destruct r1 as [[]|]; try discriminate;
        injection R as <- <-; (split; [reflexivity|split; congruence]). }
    destruct E as [-> [E E2]]. split; [exact E|]. split; [exact E2|].
    destruct (Hx x eq_refl) as [K|[K|K]]; [left; exact K|contradiction|right; exact K]. }
  destruct T as [evs2 [T [S Hx]]]. split.
  - exists (EvRequest q c :: evs2). split; [exact T|]. split; [exact S|]. intros x E.
    destruct (Hx x E) as [Ne [Nv [K|K]]]; [|apply D_cause; assumption].
    apply by_app; [|exact Ne]. exists [], evs2, q, c. left. rewrite app_nil_r. split; [reflexivity|exact K].
  - destruct r as [[g|]|x|]; try exact I. intros Hp. exists (EvRequest q c :: evs2).
    split; [exact T|]. exists [], evs2, c. split; [reflexivity|]. rewrite app_nil_r.
    intros Hb v Ha. destruct (maybe_need_with_bubbling e q c f l w Hb) as [cs [Hc E]].
    rewrite Ha in E. rewrite R in E.
    destruct (Hp v l (add_events (EvRequest q c :: cs ++ [EvAnswer q v]) w)) as [N1 N2].
    destruct (f v l _) as [[r1 l1] w1]. cbn in N1, N2. injection E as E _ _.
    destruct r1 as [g|x|]; cbn in E; [discriminate| |discriminate].
    destruct x; try discriminate; [apply N1|apply N2]; reflexivity.
Qed.
Lemma sound_maybe_need {L G} q c (f : pval q -> M L G) : (forall v, sound DC (f v)) ->
  sound C (maybe_need_with e q c f).
Proof. intros Hf l w. apply maybe_need_at, Hf. Qed.

Context (by_missing : forall s tr evs q, unanswered e tr evs q -> C s tr evs (ECbNoCallback q)).
Lemma sound_need {L G} q c (f : pval q -> M L G) :
  (forall v, sound DC (f v)) -> (forall v, plain_errors (f v)) -> sound C (need_with e q c f).
Proof.
  intros Hf Hp l w. destruct (maybe_need_at q c f l w Hf) as [H1 H2]. unfold need_with.
  unfold sound_at, bind in *. destruct (maybe_need_with e q c f l w) as [[[[g|]|x|] l1] w1].
  - destruct H1 as [evs [T [S _]]]. exists evs. split; [exact T|]. split; [exact S|discriminate].
  - cbn. destruct H1 as [_ [_ [S _]]]. destruct (H2 Hp) as [evs [T U]]. exists evs.
    split; [exact T|]. split; [exact S|]. intros x [= <-]. apply by_missing, U.
  - destruct H1 as [evs [T [S H]]]. exists evs. split; [exact T|]. split; [exact S|].
    intros y [= <-]. auto.
  - destruct H1 as [evs [T [S H]]]. exists evs. split; [exact T|]. split; [exact S|discriminate].
Qed.

Context (by_channel : forall s tr evs name, In (EvChan name) evs -> e_chan e name = None ->
  unanswered e tr evs PChannelBindings -> C s tr evs (EMissingChannelBindingData name)).
Lemma sound_consumer {L A} (m : M L A) : plain_errors m -> sound DC m -> sound C m.
Proof.
  intros Hp H l w. specialize (H l w). destruct (Hp l w) as [N _]. unfold sound_at in *.
  destruct (m l w) as [[r l1] w1]. cbn in N.
  destruct H as [evs [T [S H]]]. exists evs. split; [exact T|]. split; [exact S|].
  intros x ->. apply D_cause; [auto|congruence].
Qed.
Lemma unanswered_after tr e0 evs q : unanswered e (tr ++ e0) evs q -> unanswered e tr (e0 ++ evs) q.
Proof.
  intros [e1 [e2 [c [-> H]]]]. exists (e0 ++ e1), e2, c. rewrite !app_assoc in *. split; [|exact H].
  rewrite <- app_assoc. reflexivity.
Qed.
Lemma maybe_need_cb_at {L G} name c (f : bytes -> M L G) l w :
  (forall v, sound DC (f v)) -> (forall v, plain_errors (f v)) ->
  sound_at C (maybe_need_cb_data e name c f) l w /\
  match maybe_need_cb_data e name c f l w with
  | (Ok None, _, w') =>
      exists evs, w_trace w' = w_trace w ++ evs /\ In (EvChan name) evs /\ e_chan e name = None /\
        unanswered e (w_trace w) evs PChannelBindings
  | _ => True
  end.
Proof.
  intros Hf Hp. unfold maybe_need_cb_data. split.
  - apply (sound_bind_at C stable); [apply sound_log|]. intros _ l1 w1 _. destruct (e_chan e name).
    + apply (sound_bind_at C stable); [apply sound_consumer; [apply Hp|apply Hf]|]. intros; apply sound_ret.
    + apply sound_maybe_need, Hf.
  - unfold bind at 1, log. destruct (e_chan e name) as [d|].
    + unfold bind. destruct (f d l _) as [[[g|x|] l1] w1]; exact I.
    + destruct (maybe_need_at PChannelBindings (and_provider (this_provider PChannelBindingName name) c)
        f l (add_event (EvChan name) w) Hf) as [_ H].
      destruct (maybe_need_with e PChannelBindings _ f l (add_event (EvChan name) w))
        as [[[[g|]|x|] l1] w1]; try exact I.
      destruct (H Hp) as [evs [T U]]. cbn in T, U. exists (EvChan name :: evs).
      split; [rewrite T, <- app_assoc; reflexivity|]. split; [left; reflexivity|].
      split; [reflexivity|]. exact (unanswered_after _ [EvChan name] _ _ U).
Qed.
Lemma sound_maybe_need_cb {L G} name c (f : bytes -> M L G) :
  (forall v, sound DC (f v)) -> (forall v, plain_errors (f v)) ->
  sound C (maybe_need_cb_data e name c f).
Proof. intros Hf Hp l w. apply maybe_need_cb_at; assumption. Qed.
Lemma sound_need_cb {L G} name c (f : bytes -> M L G) :
  (forall v, sound DC (f v)) -> (forall v, plain_errors (f v)) ->
  sound C (need_cb_data e name c f).
Proof.
  intros Hf Hp l w. destruct (maybe_need_cb_at name c f l w Hf Hp) as [H1 H2]. unfold need_cb_data.
  unfold sound_at, bind in *. destruct (maybe_need_cb_data e name c f l w) as [[[[g|]|x|] l1] w1].
  - destruct H1 as [evs [T [S _]]]. exists evs. split; [exact T|]. split; [exact S|discriminate].
  - cbn. destruct H1 as [_ [_ [S _]]]. destruct H2 as [evs [T [U1 [U2 U3]]]]. exists evs.
    split; [exact T|]. split; [exact S|]. intros x [= <-]. apply by_channel; assumption.
  - destruct H1 as [evs [T [S H]]]. exists evs. split; [exact T|]. split; [exact S|].
    intros y [= <-]. auto.
  - destruct H1 as [evs [T [S H]]]. exists evs. split; [exact T|]. split; [exact S|discriminate].
Qed.

(** Announcements. *)
Context (by_unheard : forall s tr evs q, unheard evs q -> C s tr evs (ECbNoCallback q)).
Lemma run_action_origin q p slot tr :
  match run_action q p slot tr with
  | (r, slot', tr') => (forall x, r = Some x -> originates p x) /\
      (exists evs, tr' = tr ++ evs) /\ (slot' <> None -> tr' = tr)
  end.
Proof.
  revert slot tr. induction p as [r|p x k IH|p c k IH|p k IH|p k IH]; intros slot tr;
    cbn [run_action].
  - split; [intros x ->; reflexivity|]. split; [exists []; rewrite app_nil_r; reflexivity|auto].
  - specialize (IH None slot tr). destruct (run_action q (k None) slot tr) as [[r s] t].
    destruct IH as [A B]. split; [|exact B]. intros y E. exists None. split; [discriminate|auto].
  - specialize (IH None slot tr). destruct (run_action q (k None) slot tr) as [[r s] t].
    destruct IH as [A B]. split; [|exact B]. intros y E. right. exists None. split; [discriminate|auto].
  - assert (N : match run_action q (k None) slot tr with
      | (r, slot', tr') => (forall x, r = Some x -> originates (CGetAction p k) x) /\
          (exists evs, tr' = tr ++ evs) /\ (slot' <> None -> tr' = tr) end).
    { specialize (IH None slot tr). destruct (run_action q (k None) slot tr) as [[r s] t].
      destruct IH as [A B]. split; [|exact B]. intros y E. exists None. auto. }
    destruct (prop_eq_dec p q) as [E|]; [|exact N]. destruct slot as [v|]; [|exact N].
    assert (Z : forall tr o, match run_action q (k o) None tr with (_, s, _) => s = None end).
    { intros tr0 o. generalize (k o) tr0. clear. intros p0. induction p0 as [r|p x k IH|p c k IH|p k IH|p k IH];
        intros tr0; cbn [run_action]; [reflexivity|apply IH|apply IH| |apply IH].
      destruct (prop_eq_dec p q); apply IH. }
    specialize (IH (Some (eq_rect q pval v p (eq_sym E))) None (tr ++ [EvTaken q])).
    specialize (Z (tr ++ [EvTaken q]) (Some (eq_rect q pval v p (eq_sym E)))).
    destruct (run_action q (k _) None _) as [[r s] t]. destruct IH as [A [[evs B] _]].
    split; [intros y Ey; eexists; apply A, Ey|]. split; [|congruence].
    exists ([EvTaken q] ++ evs). rewrite B, app_assoc. reflexivity.
  - set (b := if prop_eq_dec p q then true else false). specialize (IH b slot tr).
    destruct (run_action q (k b) slot tr) as [[r s] t].
    destruct IH as [A B]. split; [|exact B]. intros y E. exists b. auto.
Qed.
Lemma sound_action {L} q c v : sound C (@action L e q c v).
Proof.
  intros l w. unfold sound_at, action.
  pose proof (run_action_origin q (e_cb e (w_trace w) (e_sd e) c (RAction q)) (Some v)
    (w_trace w ++ [EvAction q v c])) as K.
  destruct (run_action _ _ _ _) as [[r slot] tr]. destruct K as [Kx [[evs Ke] Ks]].
  destruct (mask_early r) as [x|] eqn:E.
  - exists (EvAction q v c :: evs). cbn. split; [rewrite Ke, <- app_assoc; reflexivity|].
    split; [apply script_left_refl|]. intros y [= <-].
    assert (E1 : r = Some x /\ x <> ECbEarlyReturn).
    { destruct r as [[]|]; try discriminate; injection E as <-; split; congruence || reflexivity. }
    destruct E1 as [-> Ne]. apply by_app; [|exact Ne].
    exists [], evs, q, c. right. exists v. rewrite app_nil_r. split; [reflexivity|]. apply Kx. reflexivity.
  - destruct slot as [v1|].
    + exists [EvAction q v c]. cbn. split; [apply Ks; discriminate|].
      split; [apply script_left_refl|]. intros y [= <-]. apply by_unheard.
      exists [], v, c. reflexivity.
    + exists (EvAction q v c :: evs). cbn. split; [rewrite Ke, <- app_assoc; reflexivity|].
      split; [apply script_left_refl|discriminate].
Qed.

(** Validation. *)
Context (by_invalid : forall s tr c v slot,
  fst (run_validate (e_vtag e) (e_vcb e tr (e_sd e) c) slot) = Some v ->
  C s tr [EvValidate c] (EValidation v)).
Lemma sound_validate {L} c : sound C (@validate L e c).
Proof.
  intros l w. unfold sound_at, validate.
  destruct (run_validate _ _ _) as [[v|] slot] eqn:E; exists [EvValidate c];
    (split; [reflexivity|]); (split; [apply script_left_refl|]); [|discriminate].
  intros x [= <-]. apply (by_invalid _ _ _ _ (w_val w)). rewrite E. reflexivity.
Qed.
End Requests.

(** * Steps *)

Lemma reports_left e s s1 m i k : script_left s s1 -> reports e s1 m i k -> reports e s m i k.
Proof.
  intros S H. destruct H; try (econstructor; eassumption).
  econstructor. eapply writer_failed_left; eassumption.
Qed.
Definition consumer_cause (e : env) (m : mech) (input : option bytes) (s : list wresp) (x : serr)
  : Prop :=
  (exists y, x = EIo y /\ writer_failed s y) \/ (exists k, x = EMech k /\ reports e s m input k) \/
  x = ECbNoValue.
Lemma consumer_left e m input s s1 x :
  script_left s s1 -> consumer_cause e m input s1 x -> consumer_cause e m input s x.
Proof.
  intros S [[y [-> H]]|[[k [-> H]]| ->]];
    [left; exists y|right; left; exists k|right; right; reflexivity]; (split; [reflexivity|]);
    [eapply writer_failed_left|eapply reports_left]; eassumption.
Qed.
Lemma consumer_is_cause e m input s tr evs x :
  consumer_cause e m input s x -> x <> ECbNoValue -> cause e m input s tr evs x.
Proof.
  intros [[y [-> H]]|[[k [-> H]]| ->]] Nv; [constructor; assumption..|contradiction].
Qed.

Lemma cause_stable e m input s s1 tr e0 evs x :
  script_left s s1 -> cause e m input s1 (tr ++ e0) evs x -> cause e m input s tr (e0 ++ evs) x.
Proof.
  intros S H. destruct H as [x [e1 [e2 [q [c H]]]] Ne|y H| | | |k H|q H|q [e1 [v [c ->]]]
    |e1 c v slot -> H| |name Hi Hn H];
    try (econstructor; eassumption).
  - apply ca_app; [|exact Ne]. exists (e0 ++ e1), e2, q, c. rewrite !app_assoc in *.
    destruct H as [[-> H]|[v [-> H]]]; [left|right; exists v];
      (split; [rewrite <- app_assoc; reflexivity|exact H]).
  - apply ca_writer. eapply writer_failed_left; eassumption.
  - apply ca_mech. eapply reports_left; eassumption.
  - apply ca_missing, unanswered_after, H.
  - apply ca_unheard. exists (e0 ++ e1), v, c. rewrite app_assoc. reflexivity.
  - apply (ca_invalid _ _ _ _ _ _ (e0 ++ e1) c v slot); [rewrite app_assoc; reflexivity|].
    rewrite app_assoc. exact H.
  - apply ca_channel; [apply in_or_app; right; exact Hi|exact Hn|apply unanswered_after, H].
Qed.

Lemma sound_at_getl {C L B} (f : L -> M L B) l w : sound_at C (f l) l w -> sound_at C (bind getl f) l w.
Proof. exact (fun H => H). Qed.
Lemma sound_at_setl {C L B} x (f : unit -> M L B) (l : L) w :
  sound_at C (f tt) x w -> sound_at C (bind (setl x) f) l w.
Proof. exact (fun H => H). Qed.
Lemma sound_bind_res (C : list wresp -> list event -> list event -> serr -> Prop) {L A B E} (h : E -> serr) (r : res E A) (k : A -> M L B) :
  (forall x, r = Err x -> forall s tr, C s tr [] (h x)) -> (forall a, r = Ok a -> sound C (k a)) ->
  sound C (bind (of_res (rmap_err h r)) k).
Proof.
  intros Hx Hk l w. destruct r as [a|x|].
  - exact (Hk a eq_refl l w).
  - apply (sound_pure C (Err (h x))); [reflexivity|]. intros y [= <-]. apply Hx. reflexivity.
  - apply (sound_pure C Panic); [reflexivity|discriminate].
Qed.
Lemma sound_res (C : list wresp -> list event -> list event -> serr -> Prop) {L A E}
    (h : E -> serr) (r : res E A) :
  (forall x, r = Err x -> forall s tr, C s tr [] (h x)) -> sound C (@of_res L A (rmap_err h r)).
Proof.
  intros H. apply sound_of_res. intros x K. destruct r as [a|y|]; try discriminate.
  injection K as <-. apply H. reflexivity.
Qed.
Lemma sound_bind_try (C : list wresp -> list event -> list event -> serr -> Prop) {L A B}
    (o : option A) (x : serr) (k : A -> M L B) :
  (o = None -> forall s tr, C s tr [] x) -> (forall a, o = Some a -> sound C (k a)) ->
  sound C (bind (match o with Some a => ret a | None => fail x end) k).
Proof.
  intros Hx Hk l w. destruct o as [a|]; [exact (Hk a eq_refl l w)|].
  apply (sound_pure C (Err x)); [reflexivity|]. intros y [= <-]. apply Hx. reflexivity.
Qed.
Lemma sound_at_on {C L A} (wrap : L -> mech) l0 (m : M L A) l w :
  sound_at C m l0 w -> sound_at C (on wrap l0 m) l w.
Proof. unfold sound_at, on. destruct (m l0 w) as [[r l1] w1]. exact (fun H => H). Qed.

Lemma plain_ret {L A} (a : A) : plain_errors (@ret L A a).
Proof. split; discriminate. Qed.
Lemma plain_fail {L A} k : plain_errors (@fail L A (EMech k)).
Proof. split; discriminate. Qed.
Lemma plain_panic {L A} : plain_errors (@panic L A).
Proof. split; discriminate. Qed.
Lemma plain_getl {L} : plain_errors (@getl L).
Proof. split; discriminate. Qed.
Lemma plain_setl {L} (x : L) : plain_errors (setl x).
Proof. split; discriminate. Qed.
Lemma plain_of_res {L A E} (r : res E A) h :
  plain_errors (@of_res L A (rmap_err (fun x => EMech (h x)) r)).
Proof. intros l w. destruct r; split; discriminate. Qed.
Lemma plain_write_all {L} d : plain_errors (@write_all L d).
Proof.
  intros l w. destruct (write_all_spec d l w) as [p [q [w' [_ [_ [[-> _]|[x ->]]]]]]];
    split; discriminate.
Qed.
Lemma plain_write_all_vectored {L} d : plain_errors (@write_all_vectored L d).
Proof.
  intros l w. destruct (write_all_vectored_spec d l w) as [p [q [w' [_ [_ [[-> _]|[x ->]]]]]]];
    split; discriminate.
Qed.
Lemma plain_write_json {L} e d : plain_errors (@write_json L e d).
Proof.
  intros l w. unfold write_json. destruct (write_all _ l w) as [[[]]]; split; discriminate.
Qed.
Lemma plain_bind {L A B} (m : M L A) (f : A -> M L B) :
  plain_errors m -> (forall a, plain_errors (f a)) -> plain_errors (bind m f).
Proof.
  intros Hm Hf l w. unfold bind. specialize (Hm l w). destruct (m l w) as [[[a|x|] l1] w1].
  - apply Hf.
  - cbn in *. split; intros [= ->]; [apply (proj1 Hm)|apply (proj2 Hm)]; reflexivity.
  - split; discriminate.
Qed.
Ltac plain_step := lazymatch goal with
  | |- plain_errors (ret _) => apply plain_ret
  | |- plain_errors (fail _) => apply plain_fail
  | |- plain_errors panic => apply plain_panic
  | |- plain_errors getl => apply plain_getl
  | |- plain_errors (setl _) => apply plain_setl
  | |- plain_errors (of_res _) => apply plain_of_res
  | |- plain_errors (write_all _) => apply plain_write_all
  | |- plain_errors (write_all_vectored _) => apply plain_write_all_vectored
  | |- plain_errors (write_json _ _) => apply plain_write_json
  | |- plain_errors (bind _ _) => apply plain_bind; [|intros ?]
  | |- plain_errors (match ?x with _ => _ end) => destruct x
  end.

Lemma sound_write_json {L} e m input x :
  (forall s y, writer_failed s y -> reports e s m input MOAuthBearerSerde) ->
  sound (fun s _ _ x => consumer_cause e m input s x) (@write_json L e x).
Proof.
  intros H l w. unfold sound_at, write_json.
  pose proof (sound_write_all (fun s _ _ x => exists y, x = EIo y /\ writer_failed s y)
    (fun s _ y K => ex_intro _ y (conj eq_refl K)) (e_json_to e x) l w) as K.
  unfold sound_at in K. destruct (write_all _ l w) as [[[u|z|] l1] w1]; destruct K as [evs [T [S K]]];
    exists evs; (split; [exact T|]); (split; [exact S|]); [discriminate| |discriminate].
  intros y [= <-]. destruct (K z eq_refl) as [y [_ Hy]]. right. left. eexists. split; [reflexivity|].
  eapply H, Hy.
Qed.

Ltac consumer_stable := intros; eapply consumer_left; eassumption.
Ltac report := first
  [ solve [econstructor; cbn; tauto]
  | solve [econstructor; eassumption]
  | idtac ].
Ltac sound_step :=
  lazymatch goal with
  | |- sound _ (ret _) => apply sound_ret
  | |- sound _ panic => apply sound_panic
  | |- sound _ getl => apply sound_getl
  | |- sound _ (setl _) => apply sound_setl
  | |- sound (fun s _ _ x => consumer_cause _ _ _ s x) (fail (EMech _)) =>
      apply sound_fail; intros ? ?; right; left; eexists; split; [reflexivity|]; report
  | |- sound (fun s _ _ x => consumer_cause _ _ _ s x) (fail ECbNoValue) =>
      apply sound_fail; intros ? ?; right; right; reflexivity
  | |- consumer_cause _ _ _ _ (EMech _) => right; left; eexists; split; [reflexivity|]; report
  | |- cause _ _ _ _ _ _ (EMech _) => apply ca_mech; report
  | |- sound _ (scram_parse _) => unfold scram_parse
  | |- sound _ (bind (scram_parse _) _) => unfold scram_parse at 1
  | |- sound _ (scram_proto _) => unfold scram_proto
  | |- sound _ (exact _ _) => unfold exact
  | |- sound _ (bind (match ?o with Some a => ret a | None => _ end) _) =>
      apply sound_bind_try; [intros ? ? ?|intros ? ?]
  | |- sound _ (bind (gss_try _) _) => unfold gss_try at 1
  | |- sound _ (fail (EMech _)) => apply sound_fail; intros ? ?; apply ca_mech; report
  | |- sound _ (fail EInputDataRequired) => apply sound_fail; intros ? ?; apply ca_input; reflexivity
  | |- sound _ (bind (of_res (rmap_err _ _)) _) => apply sound_bind_res; [intros ? ? ? ?|intros ? ?]
  | |- sound (fun s _ _ x => consumer_cause _ _ _ s x) (bind _ _) =>
      apply (sound_bind _ (fun s s1 tr e0 evs x S H => consumer_left _ _ _ s s1 x S H)); [|intros ?]
  | |- sound _ (bind _ _) => apply (sound_bind _ (cause_stable _ _ _)); [|intros ?]
  | |- sound _ (of_res (rmap_err _ _)) => apply sound_res; intros ? ? ? ?
  | |- sound _ (locally _ _) => apply sound_locally
  | |- sound _ (ignore _) => apply sound_ignore
  | |- sound (fun s _ _ x => consumer_cause _ _ _ s x) (write_all _) =>
      apply sound_write_all; intros; left; eexists; split; [reflexivity|assumption]
  | |- sound (fun s _ _ x => consumer_cause _ _ _ s x) (write_all_vectored _) =>
      apply sound_write_all_vectored; intros; left; eexists; split; [reflexivity|assumption]
  | |- sound (fun s _ _ x => consumer_cause _ _ _ s x) (ob_write_kv _) =>
      apply (sound_ob_write_kv _ (fun s s1 tr e0 evs x S H => consumer_left _ _ _ s s1 x S H));
      intros; left; eexists; split; [reflexivity|assumption]
  | |- sound _ (write_all _) => apply sound_write_all; intros; apply ca_writer; assumption
  | |- sound _ (write_all_vectored _) =>
      apply sound_write_all_vectored; intros; apply ca_writer; assumption
  | |- sound _ (write_json _ _) => apply sound_write_json; intros; econstructor; eassumption
  | |- sound _ (draws _ _) => apply (sound_draws _ (cause_stable _ _ _))
  | |- sound _ (maybe_need_with ?e _ _ _) =>
      apply (sound_maybe_need _ e (ca_app _ _ _) _ (consumer_left _ _ _) (consumer_is_cause _ _ _));
      intros ?
  | |- sound _ (need_with ?e _ _ _) =>
      apply (sound_need _ e (ca_app _ _ _) _ (consumer_left _ _ _) (consumer_is_cause _ _ _)
        (ca_missing _ _ _)); intros ?; [|repeat plain_step]
  | |- sound _ (maybe_need_cb_data ?e _ _ _) =>
      apply (sound_maybe_need_cb _ (cause_stable _ _ _) e (ca_app _ _ _) _ (consumer_left _ _ _)
        (consumer_is_cause _ _ _)); intros ?; [|repeat plain_step]
  | |- sound _ (need_cb_data ?e _ _ _) =>
      apply (sound_need_cb _ (cause_stable _ _ _) e (ca_app _ _ _) _ (consumer_left _ _ _)
        (consumer_is_cause _ _ _) (ca_channel _ _ _)); intros ?; [|repeat plain_step]
  | |- sound _ (action ?e _ _ _) =>
      apply (sound_action _ e (ca_app _ _ _) (ca_unheard _ _ _))
  | |- sound _ (validate ?e _) =>
      apply sound_validate; intros ? ? ? ? ? ?; eapply (ca_invalid _ _ _ _ _ _ []);
      [reflexivity|rewrite app_nil_r; eassumption]
  | |- sound _ (match ?x with _ => _ end) => destruct x eqn:?
  end.
Ltac forward := repeat lazymatch goal with
  | |- sound_at _ (bind getl _) _ _ => apply sound_at_getl
  | |- sound_at _ (bind (setl _) _) _ _ => apply sound_at_setl
  end.

Lemma step_sound e input m w : sound_at (cause e m input) (mech_step e input) m w.
Proof.
  unfold mech_step. forward.
  destruct m as [| |s|s| | | | |s|s|s|s|a s|a s|s|s]; apply sound_at_on; unfold_steps; forward;
    try lazymatch type of s with option _ => destruct s as [s|] end; try destruct s; try destruct input as [i|]; forward;
    match goal with |- sound_at ?C ?m ?l ?w => apply ((fun (H : sound C m) => H l w)) end.
  all: repeat sound_step.
  all: try (apply sound_fail; intros ? ?; solve [apply ca_done; exact I]).
  all: try match goal with |- cause _ _ _ _ _ _ (EMech _) => apply ca_mech; report end.
  all: try discriminate.
  all: try (match goal with H : unwrap_or_empty (Some _) = _ |- _ => cbn in H; rewrite <- H in * end;
    constructor; assumption).
  - apply (rp_scram_first_sem _ _ _ _ _ a0); [assumption|].
    apply strip_prefix_iff in Heqo. rewrite app_nil_r in Heqo. intros n Hn E. rewrite Heqo in E.
    apply Hn. apply (app_inv_head (ws_nonce s)). rewrite <- E, app_nil_r. reflexivity.
  - apply (rp_scram_first_sem _ _ _ _ _ a0); [assumption|].
    match goal with H : from_utf8 _ = Some _ |- _ => apply from_utf8_some in H; destruct H as [_ ->] end.
    match goal with H : N.eqb _ _ = true |- _ => apply N.eqb_eq in H; subst end. assumption.
  - apply (rp_scram_first_sem _ _ _ _ _ a0); [assumption|].
    match goal with H : from_utf8 _ = Some _ |- _ => apply from_utf8_some in H; destruct H as [_ ->] end.
    assumption.
  - apply (rp_scram_first_sem _ _ _ _ _ a0); [assumption|].
    intros n _. exact (proj1 (strip_prefix_none _ _) Heqo n).
  - apply sound_fail. intros. eapply ca_mutual; try eassumption; try reflexivity.
    intros ->. match goal with H : bytes_eqb ?x ?x = false |- _ => rewrite bytes_eqb_refl in H end.
    discriminate.
  - econstructor; [eassumption|]. right; assumption.
  - econstructor; [eassumption|]. left; assumption.
  - apply sound_fail. intros. subst. eapply ca_no_token; try eassumption; try reflexivity.
    left; split; reflexivity.
  - apply sound_fail. intros. subst. eapply ca_no_token; try eassumption; try reflexivity.
    right; reflexivity.
Qed.

Theorem errors_caused e s input script x out s' :
  step e s input script = (Err x, out, s') ->
  exists evs, new_events s s' evs /\ cause e (s_mech s) input script (s_trace s) evs x.
Proof.
  intros H. unfold step, run in H.
  pose proof (step_sound e input (s_mech s)
    (mk_world [] script (s_trace s) (s_rng s) (s_val s))) as K. unfold sound_at in K.
  destruct (mech_step e input (s_mech s) _) as [[r1 m1] w1].
  injection H as -> <- <-. destruct K as [evs [T [_ K]]]. exists evs. split; [exact T|].
  apply K. reflexivity.
Qed.

(** ** What particular errors mean *)

Ltac cause_of H :=
  let evs := fresh "evs" in let T := fresh "T" in let K := fresh "K" in
  destruct (errors_caused _ _ _ _ _ _ _ H) as [evs [T K]].

Lemma app_invents e tr evs x : app_returns e tr evs x -> invents e x.
Proof.
  intros [evs1 [evs2 [q [c [[_ H]|[v [_ H]]]]]]]; unfold invents; do 3 eexists; exact H.
Qed.
Ltac by_app := match goal with
  | H : app_returns _ _ _ ?x, N : ~ invents _ ?x |- _ => destruct (N (app_invents _ _ _ _ H))
  end.

Theorem mutual_failure e s input script out s' :
  step e s input script = (Err EMutualAuthenticationFailed, out, s') ->
  ~ invents e EMutualAuthenticationFailed ->
  exists a st i v64 v, s_mech s = XScramC a (Some (ScServerFirst st)) /\ input = Some i /\
    server_final_parse i = Ok (SfVerifier v64) /\ decode v64 = Some v /\ v <> wf_verifier st.
Proof.
  intros H N. cause_of H. inversion K; subst; [by_app|].
  repeat eexists; eassumption.
Qed.

Theorem never_reported e s input script x out s' :
  step e s input script = (Err x, out, s') -> foreign_error x -> invents e x.
Proof.
  intros H F. cause_of H.
  inversion K; subst; try (destruct F; fail); eapply app_invents; eassumption.
Qed.

Theorem early_return_hidden e s input script out s' :
  step e s input script <> (Err ECbEarlyReturn, out, s').
Proof. intros H. cause_of H. inversion K; subst. congruence. Qed.

Theorem input_missing e s input script out s' :
  step e s input script = (Err EInputDataRequired, out, s') -> ~ invents e EInputDataRequired ->
  input = None.
Proof. intros H N. cause_of H. inversion K; subst; [by_app|reflexivity]. Qed.

Theorem missing_prop e s input script x out s' :
  step e s input script = (Err x, out, s') -> is_missing_prop x = true -> ~ invents e x ->
  exists q evs, x = ECbNoCallback q /\ new_events s s' evs /\
    (unanswered e (s_trace s) evs q \/ unheard evs q).
Proof.
  intros H F N. destruct x; try discriminate. cause_of H.
  exists p, evs. split; [reflexivity|]. split; [assumption|].
  inversion K; subst; [by_app|left; assumption|right; assumption].
Qed.

Lemma xoauth2_errors i x :
  xoauth2_parse i = Err x -> x = MXOAuth2InvalidFormat \/ x = MXOAuth2NotUtf8.
Proof.
  unfold xoauth2_parse. intros H.
  repeat match type of H with
  | (match ?t with _ => _ end) = _ => destruct t
  | (let (_, _) := ?t in _) = _ => destruct t
  end; inversion H; auto.
Qed.

Theorem outcome_means_server_error e s input script k out s' :
  step e s input script = (Err (EMech k), out, s') -> kind k = KOutcome ->
  ~ invents e (EMech k) ->
  exists a st i x, s_mech s = XScramC a (Some (ScServerFirst st)) /\ input = Some i /\
    server_final_parse i = Ok (SfError x) /\ k = MScramServerError x.
Proof.
  intros H F N. cause_of H. inversion K; subst; [by_app|].
  match goal with R : reports _ _ _ _ _ |- _ => inversion R; subst; try discriminate end.
  - exfalso. match goal with P : xoauth2_parse _ = Err _ |- _ =>
      destruct (xoauth2_errors _ _ P) as [-> | ->]; discriminate end.
  - do 4 eexists. refine (conj eq_refl (conj eq_refl (conj _ eq_refl))). assumption.
  - exfalso. match goal with P : In _ _ |- _ => destruct P as [<-|[<-|[<-|[]]]]; discriminate end.
  - exfalso. match goal with P : In _ _ |- _ => destruct P as [<-|[<-|[<-|[]]]]; discriminate end.
Qed.

(** ** Errors about being finished *)

(** If [m] succeeds with [a] in the state [l], then [R a l]. *)
Definition leads {L A} (R : A -> L -> Prop) (m : M L A) : Prop :=
  forall l w a l1 w1, m l w = (Ok a, l1, w1) -> R a l1.
Lemma leads_bind {L A B} R (m : M L A) (f : A -> M L B) :
  (forall a, leads R (f a)) -> leads R (bind m f).
Proof.
  intros H l w b l2 w2 E. unfold bind in E. destruct (m l w) as [[[a|x|] l1] w1]; try discriminate.
  exact (H a _ _ _ _ _ E).
Qed.
Lemma leads_end {L A} (R : A -> L -> Prop) x a : R a x -> leads R (bind (setl x) (fun _ => ret a)).
Proof. intros H l w b l2 w2 [= <- <- <-]. exact H. Qed.
Lemma leads_ret {L A} (R : A -> L -> Prop) a : (forall l, R a l) -> leads R (ret a).
Proof. intros H l w b l2 w2 [= <- <- <-]. apply H. Qed.
Lemma leads_fail {L A} (R : A -> L -> Prop) x : leads R (fail x).
Proof. intros l w b l2 w2 [=]. Qed.
Lemma leads_panic {L A} (R : A -> L -> Prop) : leads R panic.
Proof. intros l w b l2 w2 [=]. Qed.

Definition live {L} (wrap : L -> mech) (r : state) (l : L) : Prop := r = Running -> ~ over (wrap l).

Ltac lead := lazymatch goal with
  | |- leads _ (bind (setl ?x) (fun _ => ret ?a)) =>
      apply leads_end; first [discriminate | intros _ []]
  | |- leads _ (bind _ _) => apply leads_bind; intros ?
  | |- leads _ (ret _) => apply leads_ret; intros ? [=]
  | |- leads _ (fail _) => apply leads_fail
  | |- leads _ panic => apply leads_panic
  | |- leads _ (match ?x with _ => _ end) => destruct x
  end.

(** While steps return Running, the mechanism keeps its implementation and is not over. *)
Lemma running_live e s input script out s' :
  step e s input script = (Ok Running, out, s') ->
  ~ over (s_mech s') \/ exists c, s_mech s' = XGssapiS c.
Proof.
  unfold step, run. intros H.
  destruct (mech_step e input (s_mech s) _) as [[r m1] w1] eqn:E.
  injection H as -> <- <-. cbn. unfold mech_step in E. unfold bind, getl in E.
  destruct (s_mech s); unfold on in E;
    match type of E with match ?m ?l ?w with _ => _ end = _ =>
      destruct (m l w) as [[r2 l2] w2] eqn:F; injection E as -> <- <- end;
    try (left; solve [intros []]); try (right; eexists; reflexivity); left.
  all: match goal with F : ?m ?l _ = (_, ?l2, _) |- ~ over (?wrap ?l2) =>
    assert (Q : leads (live wrap) m); [|exact (Q _ _ _ _ _ F eq_refl)] end.
  - unfold login_client_step. repeat lead.
  - unfold login_server_step. repeat lead.
  - unfold xoauth2_client_step. repeat lead.
  - unfold oauthbearer_client_step. repeat lead.
  - unfold scram_server_step. repeat lead.
  - unfold gss_client_step, gss_client_pending. repeat lead.
Qed.

Lemma live_not_done e s input script out s' :
  ~ over (s_mech s) -> (forall c, s_mech s <> XGssapiS c) -> ~ invents e EMechanismDone ->
  step e s input script <> (Err EMechanismDone, out, s').
Proof.
  intros L G N H. cause_of H. inversion K; subst; [by_app|contradiction|].
  exact (G _ H0).
Qed.

Lemma same_impl_refl m : same_impl m m.
Proof. destruct m; simpl; trivial. Qed.
Lemma same_impl_trans m n o : same_impl m n -> same_impl n o -> same_impl m o.
Proof. destruct m, n; simpl; try contradiction; destruct o; simpl; trivial; congruence. Qed.

Theorem impl_kept e s input script r out s' :
  step e s input script = (r, out, s') -> same_impl (s_mech s) (s_mech s').
Proof.
  unfold step, run. intros H.
  destruct (mech_step e input (s_mech s) _) as [[r1 m1] w1] eqn:E.
  injection H as _ _ <-. cbn. unfold mech_step in E. unfold bind, getl in E.
  destruct (s_mech s); unfold on in E;
    match type of E with match ?m ?l ?w with _ => _ end = _ =>
      destruct (m l w) as [[r2 l2] w2]; injection E as _ <- _ end; simpl; trivial.
Qed.

Lemma ongoing_impl e s0 s : ongoing e s0 s -> same_impl (s_mech s0) (s_mech s).
Proof.
  intros H. induction H; [apply same_impl_refl|].
  eapply same_impl_trans; [eassumption|eapply impl_kept; eassumption].
Qed.

Lemma begun_live reg sd m s : begun reg sd m s -> ~ over (s_mech s).
Proof.
  unfold begun. intros H. destruct sd;
    remember (Builtin (s_mech s)) as i eqn:E; destruct H; injection E as E || discriminate E;
    rewrite <- E; intros [].
Qed.
Lemma begun_gssapi reg sd m s c :
  begun reg sd m s -> same_impl (s_mech s) (XGssapiS c) -> sd = SServer /\ m = DGssapi.
Proof.
  unfold begun. intros H K. destruct sd;
    remember (Builtin (s_mech s)) as i eqn:E; destruct H; injection E as E || discriminate E;
    rewrite <- E in K; try destruct K; auto.
Qed.
Lemma begun_scram_client reg sd m s a c :
  begun reg sd m s -> same_impl (s_mech s) (XScramC a c) ->
  sd = SClient /\ exists plus, m = DScram a plus.
Proof.
  unfold begun. intros H K. destruct sd;
    remember (Builtin (s_mech s)) as i eqn:E; destruct H; injection E as E || discriminate E;
    rewrite <- E in K; simpl in K; try contradiction; subst; split; eauto.
Qed.

Lemma ongoing_live e s0 s :
  ongoing e s0 s -> ~ over (s_mech s0) -> ~ over (s_mech s) \/ exists c, s_mech s = XGssapiS c.
Proof.
  intros H L. destruct H; [left; exact L|]. eapply running_live; eassumption.
Qed.

(** Before a mechanism is done or has failed, it does not say that it is. *)
Theorem not_done_before e reg sd m s0 s input script out s' :
  begun reg sd m s0 -> ongoing e s0 s -> ~ (sd = SServer /\ m = DGssapi) ->
  ~ invents e EMechanismDone ->
  step e s input script <> (Err EMechanismDone, out, s').
Proof.
  intros B O G N. pose proof (ongoing_impl _ _ _ O) as I.
  assert (X : forall c, s_mech s <> XGssapiS c).
  { intros c E. rewrite E in I. exact (G (begun_gssapi _ _ _ _ _ B I)). }
  apply live_not_done; [|exact X|exact N].
  destruct (ongoing_live _ _ _ O (begun_live _ _ _ _ B)) as [H|[c H]]; [exact H|].
  destruct (X c H).
Qed.

Theorem mutual_client_side e reg sd m s0 s input script out s' :
  begun reg sd m s0 -> ongoing e s0 s ->
  step e s input script = (Err EMutualAuthenticationFailed, out, s') ->
  ~ invents e EMutualAuthenticationFailed -> sd = SClient /\ exists a plus, m = DScram a plus.
Proof.
  intros B O H N. destruct (mutual_failure _ _ _ _ _ _ H N) as [a [st [i [v [w [E _]]]]]].
  pose proof (ongoing_impl _ _ _ O) as I. rewrite E in I.
  destruct (begun_scram_client _ _ _ _ _ _ B I) as [X [plus Y]]. eauto.
Qed.

(** ** Kinds of mechanism errors *)

Theorem scram_client_kind e s a st input script k out s' :
  step e s input script = (Err (EMech k), out, s') -> ~ invents e (EMech k) ->
  s_mech s = XScramC a (Some st) -> (forall plus, st <> ScInitial plus) ->
  exists i, input = Some i /\
  match kind k with
  | KParse => ~ syntax_ok (s_mech s) i \/
      exists sf, server_first_parse i = Ok sf /\ from_utf8 (sf_iterations sf) = None
  | KProtocol => syntax_ok (s_mech s) i
  | KOutcome => exists x, server_final_parse i = Ok (SfError x)
  end.
Proof.
  intros H N E P. cause_of H. inversion K as [? A| | | | |? R| | | | |]; subst; [by_app|].
  rewrite E in R |- *. inversion R; subst; try (destruct (P plus); reflexivity);
    (eexists; split; [reflexivity|]); cbn; eauto.
  - left. intros [y Y]. congruence.
  - left. intros [y Y]. congruence.
Qed.

Theorem scram_server_kind e s a st input script k out s' :
  step e s input script = (Err (EMech k), out, s') -> ~ invents e (EMech k) ->
  s_mech s = XScramS a st ->
  exists i, input = Some i /\
  match kind k with
  | KParse => ~ syntax_ok (s_mech s) i \/ k = MScramChannelBindingsNotUsed \/
              k = MScramPasswordHashInvalid
  | KProtocol => syntax_ok (s_mech s) i
  | KOutcome => False
  end.
Proof.
  intros H N E. cause_of H. inversion K as [? A| | | | |? R| | | | |]; subst; [by_app|].
  rewrite E in R |- *. inversion R; subst;
    (eexists; split; [reflexivity|]); cbn; eauto.
  - left. intros [y Y]. congruence.
  - left. intros [y Y]. congruence.
Qed.
