(** step64 with any writer (C98). *)
From Coq Require Import Lia ZArith.
From Verif Require Import Bytes BytesFacts Base64 Base64Facts Types World CallbackSpec Spec_Basic WorldFacts MonadFacts
  Simple OAuth Scram Gssapi Session Frame Sim Spec_Session Proof_Basic Proof_Session Step64 Spec_Step64.
Open Scope m_scope.

(** * The encoder *)
Lemma encode_groups k : forall a b, length a = 3 * k -> encode (a ++ b) = encode a ++ encode b.
Proof.
  induction k as [|k IH]; intros a b H.
  - destruct a; [reflexivity|simpl in H; lia].
  - destruct a as [|x [|y [|z a]]]; simpl in H; try lia.
    cbn [app encode]. rewrite IH by lia. rewrite app_assoc. reflexivity.
Qed.
Lemma encode_groups_length k a : length a = 3 * k -> length (encode a) = 4 * k.
Proof.
  intros H. rewrite encode_length, H.
  replace (3 * k + 2) with (2 + k * 3) by lia. rewrite Nat.div_add by lia. reflexivity.
Qed.

Lemma give_split data ds x sent r : give data ds = (x, sent, r) ->
  match x with
  | WAccept k => sent ++ skipn k data = data
  | _ => sent = []
  end.
Proof.
  unfold give. destruct ds as [|[n|n|] ds]; intros [= <- <- <-]; auto.
  - rewrite skipn_all. apply app_nil_r.
  - destruct (Nat.min_spec n (length data)) as [[_ ->]|[H ->]]; [apply firstn_skipn|].
    rewrite skipn_all, firstn_all2 by lia. apply app_nil_r.
Qed.

Definition small (en : enc) : Prop := length (en_extra en) < 3.

Definition taken (x : wresp) (b : bytes) : bytes := match x with WAccept k => firstn k b | _ => [] end.

Lemma enc_write_stream en b ds x en' sent r : small en -> b <> [] -> enc_write en b ds = (x, en', sent, r) ->
  small en' /\ forall y, sent ++ en_out en' ++ encode (en_extra en' ++ y) =
    en_out en ++ encode (en_extra en ++ taken x b ++ y).
Proof.
  intros Hs Hb H. unfold enc_write in H. destruct (en_out en) as [|o os] eqn:Eo.
  - destruct (Nat.ltb (length (en_extra en ++ b)) 3) eqn:El.
    { injection H as <- <- <- <-. split; [apply Nat.ltb_lt; exact El|]. intros y.
      cbn [en_out en_extra taken app]. rewrite firstn_all, app_assoc. reflexivity. }
    apply Nat.ltb_ge in El. set (all := en_extra en ++ b) in *.
    set (k := Nat.min (length all / 3) enc_groups) in *.
    assert (K : 3 * k <= length all).
    { unfold k. pose proof (Nat.mul_div_le (length all) 3). lia. }
    assert (K1 : 1 <= k).
    { unfold k. assert (1 <= length all / 3) by (apply Nat.div_le_lower_bound; lia). unfold enc_groups. lia. }
    cbv zeta in H. assert (En : exists n3, n3 = 3 * k) by eauto. destruct En as [n3 En]. rewrite <- En in *.
    destruct (give (encode (firstn n3 all)) ds) as [[x' sent'] r'] eqn:G. apply give_split in G.
    assert (L : length (firstn n3 all) = n3) by (rewrite firstn_length; lia).
    destruct x' as [n|n|]; injection H as <- <- <- <-.
    + split; [unfold small; cbn; lia|]. intros y. cbn [en_out en_extra taken app].
      rewrite (app_assoc sent'), G. rewrite <- (encode_groups k) by (rewrite L; exact En). f_equal.
      assert (E : firstn n3 all = en_extra en ++ firstn (n3 - length (en_extra en)) b).
      { unfold all. rewrite firstn_app, firstn_all2 by (unfold small in Hs; lia). reflexivity. }
      rewrite E, <- app_assoc. reflexivity.
    + subst sent'. split; [exact Hs|]. intros y. rewrite Eo. reflexivity.
    + subst sent'. split; [exact Hs|]. intros y. rewrite Eo. reflexivity.
  - destruct (give (o :: os) ds) as [[x' sent'] r'] eqn:G. apply give_split in G.
    destruct x' as [n|n|]; injection H as <- <- <- <-.
    + split; [exact Hs|]. intros y. cbn [en_out en_extra taken firstn app]. rewrite (app_assoc sent'), G. reflexivity.
    + subst sent'. split; [exact Hs|]. intros y. rewrite Eo. reflexivity.
    + subst sent'. split; [exact Hs|]. intros y. rewrite Eo. reflexivity.
Qed.

Lemma enc_writes_stream bufs : forall en ds xs took en' sent r, small en -> Forall (fun b => b <> []) bufs ->
  enc_writes en bufs ds = (xs, took, en', sent, r) ->
  small en' /\ forall y, sent ++ en_out en' ++ encode (en_extra en' ++ y) = en_out en ++ encode (en_extra en ++ took ++ y).
Proof.
  induction bufs as [|b bs IH]; intros en ds xs took en' sent r Hs Hb H; cbn [enc_writes] in H.
  - injection H as <- <- <- <- <-. auto.
  - inversion Hb as [|? ? Hb1 Hb2]; subst.
    destruct (enc_write en b ds) as [[[x e1] s1] r1] eqn:E1.
    destruct (enc_writes e1 bs r1) as [[[[xs2 t2] e2] s2] r2] eqn:E2. injection H as <- <- <- <- <-.
    destruct (enc_write_stream _ _ _ _ _ _ _ Hs Hb1 E1) as [S1 T1].
    destruct (IH _ _ _ _ _ _ _ S1 Hb2 E2) as [S2 T2]. split; [exact S2|]. intros y.
    rewrite <- app_assoc, T2, T1. unfold taken. rewrite <- !app_assoc. reflexivity.
Qed.

Lemma drain_prefix ds : forall out ok sent r, drain out ds = (ok, sent, r) ->
  exists rest, out = sent ++ rest /\ (ok = true -> rest = []).
Proof.
  induction ds as [|x ds IH]; intros out ok sent r H; destruct out as [|o os]; cbn [drain] in H.
  1,3: injection H as <- <- <-; exists []; auto.
  - injection H as <- <- <-. exists []. rewrite app_nil_r. auto.
  - destruct x as [n|n|].
    + destruct (drain (skipn n (o :: os)) ds) as [[ok1 s1] r1] eqn:E. injection H as <- <- <-.
      destruct (IH _ _ _ _ E) as [rest [E1 E2]]. exists rest. split; [|exact E2].
      rewrite <- app_assoc, <- E1, firstn_skipn. reflexivity.
    + injection H as <- <- <-. exists (o :: os). split; [reflexivity|discriminate].
    + apply IH in H. exact H.
Qed.
Lemma enc_drop_prefix en ds : exists rest, en_out en ++ encode (en_extra en) = enc_drop en ds ++ rest.
Proof.
  unfold enc_drop. destruct (drain (en_out en) ds) as [[ok s1] r1] eqn:E1.
  destruct (drain_prefix _ _ _ _ _ E1) as [rest [E2 E3]]. destruct ok.
  - rewrite E3, app_nil_r in E2 by reflexivity.
    destruct (drain (encode (en_extra en)) r1) as [[ok2 s2] r2] eqn:E4.
    destruct (drain_prefix _ _ _ _ _ E4) as [rest2 [E5 _]]. exists rest2. rewrite E2, E5, app_assoc. reflexivity.
  - exists (rest ++ encode (en_extra en)). rewrite E2, app_assoc. reflexivity.
Qed.

Lemma drain_unfailing ds : forall out, unfailing ds -> exists r, drain out ds = (true, out, r) /\ unfailing r.
Proof.
  induction ds as [|x ds IH]; intros out H; destruct out as [|o os]; cbn [drain]; eauto.
  inversion H as [|? ? Hx Hr]; subst. destruct x as [n|n|]; [|destruct (Hx n eq_refl)|apply IH, Hr].
  destruct (IH (skipn n (o :: os)) Hr) as [r [E U]]. rewrite E. exists r. rewrite firstn_skipn. auto.
Qed.
Lemma enc_drop_unfailing en ds : unfailing ds -> enc_drop en ds = en_out en ++ encode (en_extra en).
Proof.
  intros H. unfold enc_drop. destruct (drain_unfailing ds (en_out en) H) as [r [-> U]].
  destruct (drain_unfailing r (encode (en_extra en)) U) as [r' [-> _]]. reflexivity.
Qed.
Lemma give_rest (P : wresp -> Prop) data ds x sent r : Forall P ds -> give data ds = (x, sent, r) -> Forall P r.
Proof.
  intros H E. unfold give in E. destruct ds as [|[n|n|] ds]; injection E as <- <- <-; auto; inversion H; auto.
Qed.
Lemma enc_write_rest (P : wresp -> Prop) en b ds x en' sent r :
  Forall P ds -> enc_write en b ds = (x, en', sent, r) -> Forall P r.
Proof.
  intros H E. unfold enc_write in E. destruct (en_out en) as [|o os].
  - destruct (Nat.ltb _ 3); [injection E as <- <- <- <-; exact H|]. cbv zeta in E.
    destruct (give _ ds) as [[x' s'] r'] eqn:G. apply (give_rest P) in G; [|exact H].
    destruct x'; injection E as <- <- <- <-; exact G.
  - destruct (give _ ds) as [[x' s'] r'] eqn:G. apply (give_rest P) in G; [|exact H].
    destruct x'; injection E as <- <- <- <-; exact G.
Qed.
Lemma enc_writes_rest (P : wresp -> Prop) bufs : forall en ds xs took en' sent r,
  Forall P ds -> enc_writes en bufs ds = (xs, took, en', sent, r) -> Forall P r.
Proof.
  induction bufs as [|b bs IH]; intros en ds xs took en' sent r H E; cbn [enc_writes] in E.
  - injection E as <- <- <- <- <-. exact H.
  - destruct (enc_write en b ds) as [[[x e1] s1] r1] eqn:E1.
    destruct (enc_writes e1 bs r1) as [[[[xs2 t2] e2] s2] r2] eqn:E2. injection E as <- <- <- <- <-.
    eapply IH; [|exact E2]. eapply enc_write_rest; eauto.
Qed.

Lemma enc_write_whole en b ds x en' sent r : small en -> b <> [] -> en_out en = [] -> Forall whole ds ->
  enc_write en b ds = (x, en', sent, r) ->
  en_out en' = [] /\ x <> WAccept 0 /\ (ds = [] -> exists n, x = WAccept (S n)) /\ (ds = [] -> r = []).
Proof.
  intros Hs Hb Ho Hw H. unfold enc_write in H. rewrite Ho in H. unfold small in Hs.
  assert (Lb : 1 <= length b) by (destruct b; [congruence|simpl; lia]).
  destruct (Nat.ltb (length (en_extra en ++ b)) 3) eqn:El.
  { injection H as <- <- <- <-. split; [reflexivity|]. split; [intros [= E]; lia|]. split; [|auto].
    intros _. exists (length b - 1). f_equal. lia. }
  apply Nat.ltb_ge in El. set (all := en_extra en ++ b) in *.
  set (k := Nat.min (length all / 3) enc_groups) in *.
  assert (K : 3 * k <= length all).
  { unfold k. pose proof (Nat.mul_div_le (length all) 3). lia. }
  assert (K1 : 1 <= k).
  { unfold k. assert (1 <= length all / 3) by (apply Nat.div_le_lower_bound; lia). unfold enc_groups. lia. }
  assert (K2 : k <= enc_groups) by (unfold k; lia). clearbody k.
  cbv zeta in H. assert (En : exists n3, n3 = 3 * k) by eauto. destruct En as [n3 En]. rewrite <- En in *.
  assert (L : length (encode (firstn n3 all)) = 4 * k).
  { apply encode_groups_length. rewrite firstn_length. lia. }
  unfold give in H. destruct ds as [|[n|n|] ds].
  - injection H as <- <- <- <-. cbn [en_out]. rewrite skipn_all. split; [reflexivity|].
    split; [intros [= E]; lia|]. split; [|auto]. intros _. exists (n3 - length (en_extra en) - 1). f_equal. lia.
  - inversion Hw as [|? ? W _]. cbn [whole] in W. injection H as <- <- <- <-. cbn [en_out].
    rewrite Nat.min_r by lia. rewrite skipn_all. split; [reflexivity|]. split; [intros [= E]; lia|]. split; discriminate.
  - injection H as <- <- <- <-. split; [exact Ho|]. split; [discriminate|]. split; discriminate.
  - inversion Hw as [|? ? W _]. destruct W.
Qed.
Lemma enc_writes_whole bufs : forall en ds xs took en' sent r, small en -> Forall (fun b => b <> []) bufs ->
  en_out en = [] -> Forall whole ds -> enc_writes en bufs ds = (xs, took, en', sent, r) ->
  en_out en' = [] /\ no_zero xs /\ (ds = [] -> willing xs).
Proof.
  induction bufs as [|b bs IH]; intros en ds xs took en' sent r Hs Hb Ho Hw H; cbn [enc_writes] in H.
  - injection H as <- <- <- <- <-. repeat split; auto; constructor.
  - inversion Hb as [|? ? Hb1 Hb2]; subst.
    destruct (enc_write en b ds) as [[[x e1] s1] r1] eqn:E1.
    destruct (enc_writes e1 bs r1) as [[[[xs2 t2] e2] s2] r2] eqn:E2. injection H as <- <- <- <- <-.
    destruct (enc_write_stream _ _ _ _ _ _ _ Hs Hb1 E1) as [S1 _].
    pose proof (enc_write_rest whole _ _ _ _ _ _ _ Hw E1) as W1.
    destruct (enc_write_whole _ _ _ _ _ _ _ Hs Hb1 Ho Hw E1) as (O1 & N1 & A1 & R1).
    destruct (IH _ _ _ _ _ _ _ S1 Hb2 O1 W1 E2) as (O2 & N2 & A2).
    split; [exact O2|]. split; [constructor; assumption|]. intros E. constructor; auto. apply A2, R1, E.
Qed.

(** * With a writer that always takes something, a step does what it does with a perfect one. *)
Definition smooth {L A} (m : M L A) : Prop := forall l w r l' w', willing (w_script w) ->
  m l w = (r, l', w') -> willing (w_script w') /\ m l (perfect w) = (r, l', perfect w').

Lemma smooth_pure {L A} (g : L -> res serr A * L) (m : M L A) :
  (forall l w, m l w = (fst (g l), snd (g l), w)) -> smooth m.
Proof.
  intros H l w r l' w' W E. rewrite H in E. injection E as <- <- <-. split; [exact W|apply H].
Qed.
Lemma smooth_ret {L A} (a : A) : smooth (@ret L A a).
Proof. apply (smooth_pure (fun l => (Ok a, l))). reflexivity. Qed.
Lemma smooth_fail {L A} x : smooth (@fail L A x).
Proof. apply (smooth_pure (fun l => (Err x, l))). reflexivity. Qed.
Lemma smooth_panic {L A} : smooth (@panic L A).
Proof. apply (smooth_pure (fun l => (Panic, l))). reflexivity. Qed.
Lemma smooth_getl {L} : smooth (@getl L).
Proof. apply (smooth_pure (fun l => (Ok l, l))). reflexivity. Qed.
Lemma smooth_setl {L} (x : L) : smooth (setl x).
Proof. apply (smooth_pure (fun l => (Ok tt, x))). reflexivity. Qed.
Lemma smooth_of_res {L A} (x : res serr A) : smooth (@of_res L A x).
Proof. apply (smooth_pure (fun l => (x, l))). reflexivity. Qed.
Lemma smooth_bind {L A B} (m : M L A) (f : A -> M L B) :
  smooth m -> (forall a, smooth (f a)) -> smooth (bind m f).
Proof.
  intros Hm Hf l w r l' w' W H. unfold bind in *.
  destruct (m l w) as [[r1 l1] w1] eqn:E. destruct (Hm _ _ _ _ _ W E) as [W1 Hp]. rewrite Hp.
  destruct r1 as [a|x|]; [apply Hf; assumption|injection H as <- <- <-; auto..].
Qed.
Lemma smooth_locally {L L' A} (l0 : L') (m : M L' A) : smooth m -> smooth (@locally L L' A l0 m).
Proof.
  intros Hm l w r l' w' W H. unfold locally in *.
  destruct (m l0 w) as [[r1 l1] w1] eqn:E. destruct (Hm _ _ _ _ _ W E) as [W1 Hp]. rewrite Hp.
  destruct r1; injection H as <- <- <-; auto.
Qed.
Lemma smooth_on {L A} (wrap : L -> mech) l0 (m : M L A) : smooth m -> smooth (on wrap l0 m).
Proof.
  intros Hm l w r l' w' W H. unfold on in *.
  destruct (m l0 w) as [[r1 l1] w1] eqn:E. injection H as <- <- <-.
  destruct (Hm _ _ _ _ _ W E) as [W1 Hp]. rewrite Hp. auto.
Qed.
Lemma smooth_log {L} ev : smooth (@log L ev).
Proof. intros l w r l' w' W [= <- <- <-]. split; [exact W|reflexivity]. Qed.
Lemma smooth_draws {L} e n : smooth (@draws L e n).
Proof.
  induction n as [|n IH]; cbn [draws]; [apply smooth_ret|].
  apply smooth_bind; [|intros x; apply smooth_bind; [exact IH|intros; apply smooth_ret]].
  intros l w r l' w' W [= <- <- <-]. split; [exact W|reflexivity].
Qed.
Lemma smooth_validate {L} e c : smooth (@validate L e c).
Proof.
  intros l w r l' w' W H. unfold validate in *. simpl.
  destruct (run_validate _ _ _) as [[x|] slot]; injection H as <- <- <-; (split; [exact W|reflexivity]).
Qed.
Lemma smooth_action {L} e q c v : smooth (@action L e q c v).
Proof.
  intros l w r l' w' W H. unfold action in *. simpl.
  destruct (run_action _ _ _ _) as [[x slot] tr].
  destruct (mask_early x); [|destruct slot]; injection H as <- <- <-; (split; [exact W|reflexivity]).
Qed.
Lemma smooth_ignore {L A} (m : M L A) : smooth m -> smooth (ignore m).
Proof.
  intros Hm l w r l' w' W H. unfold ignore in *.
  destruct (m l w) as [[r1 l1] w1] eqn:E. destruct (Hm _ _ _ _ _ W E) as [W1 Hp]. rewrite Hp.
  destruct r1; injection H as <- <- <-; auto.
Qed.
Lemma write_all_fuel_willing fuel : forall data w, willing (w_script w) -> length (w_script w) < fuel ->
  exists w', write_all_fuel fuel data w = (Ok tt, w').
Proof.
  induction fuel as [|f IH]; intros data w W Hf; [lia|].
  destruct (w_script w) as [|x s] eqn:Es; [eexists; apply write_all_fuel_full, Es|].
  destruct data as [|b data]; [eexists; reflexivity|]. cbn [write_all_fuel]. unfold write1. rewrite Es.
  - inversion W as [|? ? [n ->] Ws]; subst. cbn [Nat.min length].
    apply IH; cbn [w_script]; [exact Ws|simpl in Hf; lia].
Qed.
Lemma smooth_write_all {L} data : smooth (@write_all L data).
Proof.
  intros l w r l' w' W H. pose proof H as H0. apply write_all_results in H.
  unfold write_all in H0. destruct (write_all_fuel_willing (S (length (w_script w))) data w W) as [w1 E]; [lia|].
  rewrite E in H0. injection H0 as <- <- <-.
  destruct H as [_ [[_ Hw]|[x [p [q [E1 _]]]]]]; [|discriminate].
  split; [eapply willing_left; [apply Hw|exact W]|]. rewrite write_all_full by reflexivity.
  rewrite (perfect_wrote _ _ _ Hw). reflexivity.
Qed.
Lemma smooth_write_json {L} e x : smooth (@write_json L e x).
Proof.
  intros l w r l' w' W H. unfold write_json in *.
  destruct (write_all (e_json_to e x) l w) as [[r1 l1] w1] eqn:E.
  destruct (smooth_write_all _ _ _ _ _ _ W E) as [W1 Hp]. rewrite Hp.
  destruct r1; injection H as <- <- <-; auto.
Qed.
Lemma smooth_write_all_vectored {L} bufs : smooth (@write_all_vectored L bufs).
Proof.
  intros l w r l' w' W H.
  pose proof (vectored_exact bufs l w) as V. rewrite H in V.
  destruct V as (-> & _ & _ & _ & p & q & _ & _ & _ & V). destruct (V W) as [-> _].
  destruct (write_all_vectored_spec bufs l w) as [p' [q' [w1 [E [Hw [[H1 Hq]|[y H1]]]]]]];
    rewrite H1 in H; [|discriminate]. injection H as Hl <-.
  split; [eapply willing_left; [apply Hw|exact W]|].
  rewrite (Hq (willing_no_zero _ W)), app_nil_r in E.
  rewrite write_all_vectored_full by reflexivity. rewrite (perfect_wrote _ _ _ Hw), E. reflexivity.
Qed.
Lemma smooth_ob_write_kv {L} kv : smooth (@ob_write_kv L kv).
Proof.
  induction kv as [|[k v] r IH]; cbn [ob_write_kv]; [apply smooth_ret|].
  apply smooth_bind; [apply smooth_write_all_vectored|]. intros; exact IH.
Qed.

Lemma cr_satisfy_smooth {L G} q (f : pval q -> M L G) st v l w r st' l' w' :
  (forall v, smooth (f v)) -> willing (w_script w) -> cr_satisfy q f st v l w = (r, st', l', w') ->
  willing (w_script w') /\ cr_satisfy q f st v l (perfect w) = (r, st', l', perfect w').
Proof.
  intros Hf W H. unfold cr_satisfy in *. destruct st; try (injection H as <- <- <- <-; auto).
  assert (S : smooth (bind (log (EvAnswer q v)) (fun _ => f v))).
  { apply smooth_bind; [apply smooth_log|]. intros _. apply Hf. }
  destruct (bind (log (EvAnswer q v)) (fun _ => f v) l w) as [[r1 l1] w1] eqn:E.
  destruct (S _ _ _ _ _ W E) as [W1 Hp]. rewrite Hp.
  destruct r1; injection H as <- <- <- <-; auto.
Qed.
Lemma run_satisfy_smooth {L G} q (f : pval q -> M L G) p : (forall v, smooth (f v)) ->
  forall st l w r st' l' w', willing (w_script w) -> run_satisfy q f p st l w = (r, st', l', w') ->
    willing (w_script w') /\ run_satisfy q f p st l (perfect w) = (r, st', l', perfect w').
Proof.
  intros Hf. induction p as [x|p v k IH|p c k IH|p k IH|p k IH]; intros st l w r st' l' w' W H;
    cbn [run_satisfy] in H |- *.
  - injection H as <- <- <- <-. auto.
  - destruct (castp v) as [v'|]; [|apply IH; assumption].
    destruct (cr_satisfy q f st v' l w) as [[[r1 st1] l1] w1] eqn:E.
    destruct (cr_satisfy_smooth _ _ _ _ _ _ _ _ _ _ Hf W E) as [W1 Hp]. rewrite Hp.
    destruct r1; [apply IH; assumption..|injection H as <- <- <- <-; auto].
  - destruct (prop_eq_dec p q) as [Epq|]; [|apply IH; assumption].
    cbn zeta in *.
    change (add_event (EvClosure p) (perfect w)) with (perfect (add_event (EvClosure p) w)).
    assert (W0 : willing (w_script (add_event (EvClosure p) w))) by exact W.
    destruct c as [x|v]; [apply IH; assumption|].
    destruct (castp v) as [v'|]; [|apply IH; assumption].
    destruct (cr_satisfy q f st v' l (add_event (EvClosure p) w)) as [[[r1 st1] l1] w1] eqn:E.
    destruct (cr_satisfy_smooth _ _ _ _ _ _ _ _ _ _ Hf W0 E) as [W1 Hp]. rewrite Hp.
    destruct r1; [apply IH; assumption..|injection H as <- <- <- <-; auto].
  - apply IH; auto.
  - apply IH; auto.
Qed.
Lemma smooth_maybe_need_with {L G} e q c (f : pval q -> M L G) :
  (forall v, smooth (f v)) -> smooth (maybe_need_with e q c f).
Proof.
  intros Hf l w r l' w' W H. unfold maybe_need_with in *.
  change (add_event (EvRequest q c) (perfect w)) with (perfect (add_event (EvRequest q c) w)).
  simpl w_trace.
  destruct (run_satisfy q f (e_cb e (w_trace w) (e_sd e) c (RSatisfy q)) CrOpen l
     (add_event (EvRequest q c) w)) as [[[r1 st] l1] w1] eqn:E.
  destruct (run_satisfy_smooth q f _ Hf _ _ (add_event (EvRequest q c) w) _ _ _ _ W E) as [W1 Hp]. rewrite Hp.
  destruct r1 as [x|x|]; [destruct (mask_early x) as [[]|]|..]; injection H as <- <- <-; auto.
Qed.
Lemma smooth_need_with {L G} e q c (f : pval q -> M L G) :
  (forall v, smooth (f v)) -> smooth (need_with e q c f).
Proof.
  intros Hf. unfold need_with. apply smooth_bind; [apply smooth_maybe_need_with; assumption|].
  intros [g|]; [apply smooth_ret|apply smooth_fail].
Qed.
Lemma smooth_maybe_need_cb_data {L G} e name c (f : bytes -> M L G) :
  (forall v, smooth (f v)) -> smooth (maybe_need_cb_data e name c f).
Proof.
  intros Hf. unfold maybe_need_cb_data. apply smooth_bind; [apply smooth_log|]. intros _.
  destruct (e_chan e name).
  - apply smooth_bind; [apply Hf|]. intros; apply smooth_ret.
  - apply smooth_maybe_need_with; assumption.
Qed.
Lemma smooth_need_cb_data {L G} e name c (f : bytes -> M L G) :
  (forall v, smooth (f v)) -> smooth (need_cb_data e name c f).
Proof.
  intros Hf. unfold need_cb_data. apply smooth_bind; [apply smooth_maybe_need_cb_data; assumption|].
  intros [g|]; [apply smooth_ret|apply smooth_fail].
Qed.

Ltac smooth_step :=
  lazymatch goal with
  | |- smooth (ret _) => apply smooth_ret
  | |- smooth (fail _) => apply smooth_fail
  | |- smooth panic => apply smooth_panic
  | |- smooth getl => apply smooth_getl
  | |- smooth (setl _) => apply smooth_setl
  | |- smooth (of_res _) => apply smooth_of_res
  | |- smooth (bind _ _) => apply smooth_bind; [|intros ?]
  | |- smooth (locally _ _) => apply smooth_locally
  | |- smooth (ignore _) => apply smooth_ignore
  | |- smooth (on _ _ _) => apply smooth_on
  | |- smooth (need_with _ _ _ _) => apply smooth_need_with; intros ?
  | |- smooth (maybe_need_with _ _ _ _) => apply smooth_maybe_need_with; intros ?
  | |- smooth (need_cb_data _ _ _ _) => apply smooth_need_cb_data; intros ?
  | |- smooth (maybe_need_cb_data _ _ _ _) => apply smooth_maybe_need_cb_data; intros ?
  | |- smooth (action _ _ _ _) => apply smooth_action
  | |- smooth (validate _ _) => apply smooth_validate
  | |- smooth (write_all_vectored _) => apply smooth_write_all_vectored
  | |- smooth (write_all _) => apply smooth_write_all
  | |- smooth (write_json _ _) => apply smooth_write_json
  | |- smooth (ob_write_kv _) => apply smooth_ob_write_kv
  | |- smooth (draws _ _) => apply smooth_draws
  | |- smooth (log _) => apply smooth_log
  | |- smooth (match ?x with _ => _ end) => destruct x
  | |- smooth (scram_parse _) => unfold scram_parse
  | |- smooth (scram_proto _) => unfold scram_proto
  | |- smooth (exact _ _) => unfold exact
  | |- smooth (gss_try _) => unfold gss_try
  | |- smooth gss_err => unfold gss_err
  end.
Lemma step_smooth e input : smooth (mech_step e input).
Proof.
  unfold mech_step. apply smooth_bind; [apply smooth_getl|]. intros m.
  destruct m; unfold_steps; repeat smooth_step.
Qed.

(** * step64 *)
Lemma answered_step e s i answers r out s' : answered e s i answers r out s' -> step e s i answers = (r, out, s').
Proof.
  intros H. specialize (H []). rewrite app_nil_r in H. unfold step, run. rewrite H. destruct s'; reflexivity.
Qed.

(** What goes through the encoder for the input [i] of the step. *)
Definition through (e : env) (s : session) (i : option bytes) (ds : list wresp)
  (r : res serr state) (sent : bytes) (s' : session) : Prop :=
  exists bufs answers took en sent1 ds1,
    Forall (fun b => b <> []) bufs /\
    enc_writes enc_new bufs ds = (answers, took, en, sent1, ds1) /\
    answered e s i answers r took s' /\ sent = sent1 ++ enc_drop en ds1.

Lemma new_small : small enc_new.
Proof. unfold small. cbn. lia. Qed.

Lemma through_prefix e s i ds r sent s' : through e s i ds r sent s' ->
  exists answers out rest, step e s i answers = (r, out, s') /\ encode out = sent ++ rest.
Proof.
  intros (bufs & answers & took & en & sent1 & ds1 & Hb & E & A & ->).
  destruct (enc_writes_stream _ _ _ _ _ _ _ _ new_small Hb E) as [_ T]. specialize (T []).
  rewrite !app_nil_r in T. cbn [enc_new en_out en_extra app] in T.
  destruct (enc_drop_prefix en ds1) as [rest D]. rewrite D in T.
  exists answers, took, rest. split; [apply answered_step, A|]. rewrite <- T, app_assoc. reflexivity.
Qed.
Lemma through_accepting e s i r sent s' : through e s i [] r sent s' ->
  exists out, step e s i [] = (r, out, s') /\ sent = encode out.
Proof.
  intros (bufs & answers & took & en & sent1 & ds1 & Hb & E & A & ->).
  destruct (enc_writes_stream _ _ _ _ _ _ _ _ new_small Hb E) as [_ T]. specialize (T []).
  rewrite !app_nil_r in T. cbn [enc_new en_out en_extra app] in T.
  destruct (enc_writes_whole _ _ _ _ _ _ _ _ new_small Hb eq_refl (Forall_nil _) E) as (_ & _ & W).
  specialize (W eq_refl).
  assert (U : unfailing ds1) by (eapply enc_writes_rest; [|exact E]; constructor).
  exists took. split.
  - specialize (A []). rewrite app_nil_r in A.
    destruct (step_smooth e i _ _ _ _ _ (W : willing (w_script (mk_world [] answers (s_trace s) (s_rng s) (s_val s)))) A) as [_ P].
    unfold step, run. unfold perfect in P. cbn [w_out w_trace w_rng w_val] in P. rewrite P. destruct s'; reflexivity.
  - rewrite enc_drop_unfailing by exact U. exact T.
Qed.
Lemma through_unfailing e s i ds st sent s' : polite e -> plain_writes (s_mech s) = true -> unfailing ds ->
  through e s i ds (Ok st) sent s' -> exists out, step e s i [] = (Ok st, out, s') /\ sent = encode out.
Proof.
  intros Hp Hm U (bufs & answers & took & en & sent1 & ds1 & Hb & E & A & ->).
  destruct (enc_writes_stream _ _ _ _ _ _ _ _ new_small Hb E) as [_ T]. specialize (T []).
  rewrite !app_nil_r in T. cbn [enc_new en_out en_extra app] in T.
  assert (U1 : unfailing ds1) by (eapply enc_writes_rest; [|exact E]; exact U).
  exists took. split; [|rewrite enc_drop_unfailing by exact U1; exact T].
  eapply step_complete; [exact Hp|right; exact Hm|apply answered_step, A].
Qed.
Lemma drain_whole ds : forall out ok sent r, Forall whole ds -> length out <= 4 * enc_groups ->
  drain out ds = (ok, sent, r) -> sent = out \/ sent = [].
Proof.
  intros out ok sent r W L E. destruct out as [|o os]; [destruct ds; injection E as <- <- <-; auto|].
  destruct ds as [|[n|n|] ds]; cbn [drain] in E; [injection E as <- <- <-; auto|..].
  - inversion W as [|? ? Wn _]. cbn [whole] in Wn.
    rewrite firstn_all2, skipn_all2 in E by lia. destruct ds; cbn [drain] in E; injection E as <- <- <-; left; apply (app_nil_r (o :: os)).
  - injection E as <- <- <-. auto.
  - inversion W as [|? ? Wn _]. destruct Wn.
Qed.
Lemma through_whole e s i ds st sent s' : polite e -> Forall whole ds -> through e s i ds (Ok st) sent s' ->
  exists out, step e s i [] = (Ok st, out, s') /\
    (sent = encode out \/ exists rest, encode out = sent ++ rest /\ length rest = 4).
Proof.
  intros Hp W (bufs & answers & took & en & sent1 & ds1 & Hb & E & A & ->).
  destruct (enc_writes_stream _ _ _ _ _ _ _ _ new_small Hb E) as [Se T]. specialize (T []).
  rewrite !app_nil_r in T. cbn [enc_new en_out en_extra app] in T.
  destruct (enc_writes_whole _ _ _ _ _ _ _ _ new_small Hb eq_refl W E) as (O & N & _).
  pose proof (enc_writes_rest whole _ _ _ _ _ _ _ _ W E) as W1.
  exists took. split; [eapply step_complete; [exact Hp|left; exact N|apply answered_step, A]|].
  unfold enc_drop. rewrite O in *. cbn [drain app] in *.
  assert (D : drain [] ds1 = (true, [], ds1)) by (destruct ds1; reflexivity). rewrite D.
  destruct (drain (encode (en_extra en)) ds1) as [[ok s2] r2] eqn:E2. cbn [app].
  assert (L : length (encode (en_extra en)) <= 4).
  { unfold small in Se. destruct (en_extra en) as [|? [|? [|? ?]]]; simpl in Se; try lia;
      rewrite encode_length; simpl; lia. }
  assert (L2 : length (encode (en_extra en)) <= 4 * enc_groups) by (unfold enc_groups; lia).
  destruct (drain_whole _ _ _ _ _ W1 L2 E2) as [->| ->].
  - left. exact T.
  - rewrite app_nil_r. destruct (en_extra en) as [|x [|y [|z l]]] eqn:Ee.
    + left. cbn [encode] in T. rewrite app_nil_r in T. exact T.
    + right. exists (encode [x]). split; [symmetry; exact T|]. rewrite encode_length. reflexivity.
    + right. exists (encode [x; y]). split; [symmetry; exact T|]. rewrite encode_length. reflexivity.
    + unfold small in Se. rewrite Ee in Se. simpl in Se. lia.
Qed.

Lemma through_whole_unfailing e s i ds st sent s' : polite e -> Forall whole ds -> unfailing ds ->
  through e s i ds (Ok st) sent s' -> exists out, step e s i [] = (Ok st, out, s') /\ sent = encode out.
Proof.
  intros Hp W U (bufs & answers & took & en & sent1 & ds1 & Hb & E & A & ->).
  destruct (enc_writes_stream _ _ _ _ _ _ _ _ new_small Hb E) as [_ T]. specialize (T []).
  rewrite !app_nil_r in T. cbn [enc_new en_out en_extra app] in T.
  destruct (enc_writes_whole _ _ _ _ _ _ _ _ new_small Hb eq_refl W E) as (_ & N & _).
  assert (U1 : unfailing ds1) by (eapply enc_writes_rest; [|exact E]; exact U).
  exists took. split; [|rewrite enc_drop_unfailing by exact U1; exact T].
  eapply step_complete; [exact Hp|left; exact N|apply answered_step, A].
Qed.

Lemma via_through e s input ds r sent s' : step64_via e s input ds r sent s' ->
  (exists i, through e s i ds r sent s' /\ input = option_map encode i) \/
  (r = Err EBase64 /\ sent = [] /\ s' = s /\ step64 e s input = (r, sent, s')).
Proof.
  unfold step64_via, step64. destruct input as [x|]; [|intros H; left; exists None; split; [exact H|reflexivity]].
  destruct (decode x) as [i|] eqn:D.
  - intros H. left. exists (Some i). split; [exact H|]. apply decode_canonical in D. subst x. reflexivity.
  - intros (-> & -> & ->). right. auto.
Qed.
Lemma step64_short e s i r out s' : step e s i [] = (r, out, s') ->
  step64 e s (option_map encode i) = (r, encode out, s').
Proof.
  intros H. destruct i as [i|]; cbn [option_map step64]; [rewrite decode_encode|]; rewrite H; reflexivity.
Qed.

Theorem via_accepting e s input r sent s' : step64_via e s input [] r sent s' -> step64 e s input = (r, sent, s').
Proof.
  intros H. destruct (via_through _ _ _ _ _ _ _ H) as [(i & T & ->)|(_ & _ & _ & E)]; [|exact E].
  destruct (through_accepting _ _ _ _ _ _ T) as [out [E ->]]. apply step64_short, E.
Qed.
Theorem via_prefix e s input ds r sent s' : step64_via e s input ds r sent s' ->
  (r = Err EBase64 /\ sent = [] /\ s' = s) \/
  exists i answers out rest, input = option_map encode i /\ step e s i answers = (r, out, s') /\
    encode out = sent ++ rest.
Proof.
  intros H. destruct (via_through _ _ _ _ _ _ _ H) as [(i & T & ->)|(-> & -> & -> & _)]; [|left; auto].
  right. destruct (through_prefix _ _ _ _ _ _ _ T) as (a & out & rest & E1 & E2). exists i, a, out, rest. auto.
Qed.
Theorem via_complete e s input ds st sent s' : polite e ->
  unfailing ds -> plain_writes (s_mech s) = true \/ Forall whole ds ->
  step64_via e s input ds (Ok st) sent s' -> step64 e s input = (Ok st, sent, s').
Proof.
  intros Hp U C H. destruct (via_through _ _ _ _ _ _ _ H) as [(i & T & ->)|(E & _)]; [|discriminate].
  destruct C as [C|C].
  - destruct (through_unfailing _ _ _ _ _ _ _ Hp C U T) as [out [E ->]]. apply step64_short, E.
  - destruct (through_whole_unfailing _ _ _ _ _ _ _ Hp C U T) as [out [E ->]]. apply step64_short, E.
Qed.
Theorem via_tail e s input ds st sent s' : polite e -> Forall whole ds ->
  step64_via e s input ds (Ok st) sent s' ->
  exists message, step64 e s input = (Ok st, message, s') /\
    (sent = message \/ exists rest, message = sent ++ rest /\ length rest = 4).
Proof.
  intros Hp W H. destruct (via_through _ _ _ _ _ _ _ H) as [(i & T & ->)|(E & _)]; [|discriminate].
  destruct (through_whole _ _ _ _ _ _ _ Hp W T) as [out [E D]]. exists (encode out). split; [apply step64_short, E|exact D].
Qed.
