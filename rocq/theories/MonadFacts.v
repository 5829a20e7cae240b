(** Inversion of successful computations. *)
From Verif Require Import Bytes BytesFacts Types World CallbackSpec WorldFacts Simple OAuth
  Scram Gssapi Session.
Open Scope m_scope.

Lemma bind_ok {L A B} (m : M L A) (f : A -> M L B) l w b l' w' :
  bind m f l w = (Ok b, l', w') ->
  exists a l1 w1, m l w = (Ok a, l1, w1) /\ f a l1 w1 = (Ok b, l', w').
Proof.
  unfold bind. destruct (m l w) as [[[a|x|] l1] w1]; intros H; try discriminate. eauto.
Qed.

Lemma bind_not_panic {L A B} (m : M L A) (f : A -> M L B) l w :
  fst (fst (m l w)) <> Panic ->
  (forall a l1 w1, m l w = (Ok a, l1, w1) -> fst (fst (f a l1 w1)) <> Panic) ->
  fst (fst (bind m f l w)) <> Panic.
Proof.
  unfold bind. destruct (m l w) as [[[a|x|] l1] w1]; simpl; intros H1 H2; auto; discriminate.
Qed.

Lemma locally_ok {L L' A} (l0 : L') (m : M L' A) (l : L) w a l2 l' w' :
  locally l0 m l w = (Ok (a, l2), l', w') -> l' = l /\ m l0 w = (Ok a, l2, w').
Proof.
  unfold locally. destruct (m l0 w) as [[[x|x|] l1] w1]; intros [= <- <- <- <-]; auto.
Qed.

Lemma of_res_ok {L A} (r : res serr A) (l : L) w a l' w' :
  of_res r l w = (Ok a, l', w') -> r = Ok a /\ l' = l /\ w' = w.
Proof. unfold of_res. intros [= -> -> ->]. auto. Qed.

Lemma rmap_err_ok {E E' A} (f : E -> E') (r : res E A) a : rmap_err f r = Ok a <-> r = Ok a.
Proof. destruct r; simpl; split; congruence. Qed.

Lemma write_all_ok {L} data (l : L) w x l' w' :
  write_all data l w = (Ok x, l', w') -> l' = l /\ wrote data w w'.
Proof.
  intros H. destruct (write_all_spec data l w) as [p [q [w1 [E [Hw [[H1 ->]|[y H1]]]]]]];
    rewrite H1 in H; [|discriminate].
  injection H as <- <- <-. rewrite app_nil_r in E. subst p. auto.
Qed.

Lemma write_all_vectored_ok {L} bufs (l : L) w x l' w' :
  write_all_vectored bufs l w = (Ok x, l', w') ->
  l' = l /\ exists p q, concat bufs = p ++ q /\ x = length p /\ wrote p w w' /\
    (no_zero (w_script w) -> p = concat bufs).
Proof.
  intros H.
  destruct (write_all_vectored_spec bufs l w) as [p [q [w1 [E [Hw [[H1 Hz]|[y H1]]]]]]];
    rewrite H1 in H; [|discriminate].
  injection H as <- <- <-. split; [reflexivity|]. exists p, q. split; [exact E|]. split; [reflexivity|].
  split; [exact Hw|]. intros Hn. rewrite E, (Hz Hn), app_nil_r. reflexivity.
Qed.

(** A successful request: the consumer ran exactly once, between closure evaluations. *)
Lemma need_with_ok {L G} e q c (f : pval q -> M L G) l w g l' w' :
  need_with e q c f l w = (Ok g, l', w') ->
  exists v cs1 cs2 w1, only_closures cs1 /\ only_closures cs2 /\
    f v l (add_events (EvRequest q c :: cs1 ++ [EvAnswer q v]) w) = (Ok g, l', w1) /\
    w' = add_events cs2 w1.
Proof.
  unfold need_with. intros H. apply bind_ok in H. destruct H as [o [l1 [w1 [H1 H2]]]].
  destruct o as [g'|]; [|discriminate]. injection H2 as <- <- <-.
  apply maybe_need_with_inv in H1. inversion H1; subst.
  - match goal with H : _ \/ _ |- _ => destruct H as [?|[? ?]]; discriminate end.
  - match goal with H : _ \/ _ |- _ => destruct H as [Hr|[Hr|[? Hr]]]; try discriminate end.
    injection Hr as ->. eauto 10.
  - match goal with H : _ \/ _ |- _ => destruct H as [?|[? ?]]; discriminate end.
Qed.

Lemma maybe_need_with_ok {L G} e q c (f : pval q -> M L G) l w o l' w' :
  maybe_need_with e q c f l w = (Ok o, l', w') ->
  (o = None /\ l' = l /\ exists cs, only_closures cs /\
     w' = add_events (EvRequest q c :: cs) w) \/
  (exists v cs1 cs2 w1 r, only_closures cs1 /\ only_closures cs2 /\
     f v l (add_events (EvRequest q c :: cs1 ++ [EvAnswer q v]) w) = (r, l', w1) /\
     w' = add_events cs2 w1 /\ r <> Panic /\ (forall g, o = Some g -> r = Ok g)).
Proof.
  intros H. apply maybe_need_with_inv in H. inversion H; subst.
  - left. match goal with H : _ \/ _ |- _ => destruct H as [Hr|[? Hr]]; [|discriminate] end.
    injection Hr as ->. eauto.
  - right. exists v, cs1, cs2, w1, (Ok g). repeat split; auto; [discriminate|].
    intros g' ->. match goal with H : _ \/ _ |- _ => destruct H as [Hr|[Hr|[? Hr]]] end;
      congruence.
  - right. exists v, cs1, cs2, w1, (Err e0). repeat split; auto; [discriminate|].
    intros g' ->. match goal with H : _ \/ _ |- _ => destruct H as [Hr|[? Hr]] end; congruence.
Qed.

(** The same for error-propagating callbacks: an optional request that succeeded without a
    value wrote nothing, unless the mechanism itself reported NoValue or EarlyReturn. *)
Lemma maybe_need_with_polite {L G} e q c (f : pval q -> M L G) l w o l' w' :
  bubbling (e_cb e (w_trace w) (e_sd e) c (RSatisfy q)) ->
  maybe_need_with e q c f l w = (Ok o, l', w') ->
  (o = None /\ l' = l /\ exists cs, only_closures cs /\
     w' = add_events (EvRequest q c :: cs) w) \/
  (exists v cs r, only_closures cs /\
     answer q (e_cb e (w_trace w) (e_sd e) c (RSatisfy q)) = inr v /\
     f v l (add_events (EvRequest q c :: cs ++ [EvAnswer q v]) w) = (r, l', w') /\
     polite_result r = Ok o).
Proof.
  intros Hb H. destruct (maybe_need_with_bubbling e q c f l w Hb) as [cs [Hc E]].
  rewrite H in E. destruct (answer q _) as [r|v] eqn:Ea.
  - left. injection E as E -> ->.
    destruct r as [[]|]; simpl in E; try discriminate; injection E as ->; eauto.
  - right. destruct (f v l _) as [[r l1] w1] eqn:Ef. injection E as E -> ->.
    exists v, cs, r. auto.
Qed.

(** Writing cannot report NoValue or EarlyReturn. *)
Lemma write_all_results {L} data (l : L) w r l' w' :
  write_all data l w = (r, l', w') ->
  l' = l /\ ((r = Ok tt /\ wrote data w w') \/
             (exists x p q, r = Err (EIo x) /\ data = p ++ q /\ wrote p w w')).
Proof.
  intros H. destruct (write_all_spec data l w) as [p [q [w1 [E [Hw [[H1 ->]|[y H1]]]]]]];
    rewrite H1 in H; injection H as <- <- <-; split; auto.
  - left. rewrite app_nil_r in E. subst p. auto.
  - right. eauto 10.
Qed.

Lemma run_ok {A} (m : M mech A) s script r out s' :
  run m s script = (r, out, s') ->
  exists mech' w', m (s_mech s) (mk_world [] script (s_trace s) (s_rng s) (s_val s))
                   = (r, mech', w') /\
    out = w_out w' /\ s' = mk_session mech' (w_trace w') (w_rng w') (w_val w').
Proof.
  unfold run. destruct (m _ _) as [[r' mech'] w'] eqn:E. intros [= <- <- <-]. eauto 10.
Qed.

Lemma on_eq {L A} wrap (l : L) (m : M L A) x w r x' w' :
  on wrap l m x w = (r, x', w') ->
  exists l', m l w = (r, l', w') /\ x' = wrap l'.
Proof. unfold on. destruct (m l w) as [[r1 l1] w1]. intros [= <- <- <-]. eauto. Qed.

Ltac inv_bind H :=
  let a := fresh "a" in let l1 := fresh "l" in let w1 := fresh "w" in let H1 := fresh "H" in
  apply bind_ok in H; destruct H as [a [l1 [w1 [H1 H]]]].

(** The observable events of writes and of added events. *)
Lemma wrote_trace p w w' : wrote p w w' -> w_trace w' = w_trace w.
Proof. intros H; apply H. Qed.
Lemma wrote_out p w w' : wrote p w w' -> w_out w' = w_out w ++ p.
Proof. intros H; apply H. Qed.
Lemma wrote_script p w w' : wrote p w w' -> script_left (w_script w) (w_script w').
Proof. intros H; apply H. Qed.
Lemma wrote_val p w w' : wrote p w w' -> w_val w' = w_val w.
Proof. intros H; apply H. Qed.
Lemma wrote_rng p w w' : wrote p w w' -> w_rng w' = w_rng w.
Proof. intros H; apply H. Qed.

(** Events [evs] happened, [p] was written, [n] random numbers were drawn. *)
Definition did (evs : list event) (p : bytes) (n : nat) (w w' : world) : Prop :=
  w_trace w' = w_trace w ++ evs /\ w_out w' = w_out w ++ p /\
  w_rng w' = n + w_rng w /\ w_val w' = w_val w /\
  script_left (w_script w) (w_script w').

Lemma did_refl w : did [] [] 0 w w.
Proof. unfold did. rewrite !app_nil_r. repeat split; auto. apply script_left_refl. Qed.
Lemma did_trans e1 e2 p1 p2 n1 n2 a b c :
  did e1 p1 n1 a b -> did e2 p2 n2 b c -> did (e1 ++ e2) (p1 ++ p2) (n2 + n1) a c.
Proof.
  intros [T1 [O1 [R1 [V1 S1]]]] [T2 [O2 [R2 [V2 S2]]]]. repeat split.
  - rewrite T2, T1, app_assoc. reflexivity.
  - rewrite O2, O1, app_assoc. reflexivity.
  - rewrite R2, R1. apply Nat.add_assoc.
  - congruence.
  - eapply script_left_trans; eauto.
Qed.
Lemma did_wrote p w w' : wrote p w w' -> did [] p 0 w w'.
Proof. intros [O [T [R [V S]]]]. unfold did. rewrite app_nil_r. auto. Qed.
Lemma did_events evs w : did evs [] 0 w (add_events evs w).
Proof. unfold did. simpl. rewrite app_nil_r. repeat split; auto. apply script_left_refl. Qed.

Lemma answers_request q p c evs : answers q (EvRequest p c :: evs) = answers q evs.
Proof. reflexivity. Qed.
Lemma answers_answer q v : answers q [EvAnswer q v] = [v].
Proof. simpl. rewrite castp_refl. reflexivity. Qed.
Lemma answers_other q p v : p <> q -> answers q [EvAnswer p v] = [].
Proof. intros H. simpl. rewrite castp_neq; auto. Qed.

Lemma bind_step {L A B} (m : M L A) (f : A -> M L B) l w a l1 w1 :
  m l w = (Ok a, l1, w1) -> bind m f l w = f a l1 w1.
Proof. unfold bind. intros ->. reflexivity. Qed.
