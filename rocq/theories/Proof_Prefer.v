(** Lemmas about the client's preference function. *)
From Verif Require Import Bytes BytesFacts Types World Simple OAuth Scram Gssapi Session
  Registry Spec_Registry Spec_Prefer Proof_Registry.

Lemma fold_calls prefer l acc :
  calls prefer (option_map snd acc) (map snd l)
    (option_map snd (fold_left (sel_fold prefer) l acc)).
Proof.
  revert acc; induction l as [|[s m] r IH]; intros acc; simpl; [constructor|].
  unfold sel_fold at 2. simpl.
  destruct (prefer (option_map snd acc) m) eqn:E.
  - apply calls_take; [congruence|]. exact (IH (Some (s, m))).
  - apply calls_take; [congruence|]. exact (IH (Some (s, m))).
  - apply calls_keep; [assumption|]. exact (IH acc).
Qed.

Lemma calls_fun prefer a l x y : calls prefer a l x -> calls prefer a l y -> x = y.
Proof.
  intros H; revert y; induction H; intros y Hy; inversion Hy; subst; auto; congruence.
Qed.

Lemma picks_fun P reg l l' : picks P reg l -> picks P reg l' -> l = l'.
Proof.
  intros H; revert l'; induction H; intros l' Hl; inversion Hl; subst; try contradiction; auto.
  f_equal. auto.
Qed.

Lemma picks_In P reg l x : picks P reg l -> (In x l <-> In x reg /\ P x).
Proof.
  induction 1; simpl.
  - tauto.
  - rewrite IHpicks. intuition (subst; auto).
  - rewrite IHpicks. intuition (subst; auto). contradiction.
Qed.

Lemma picks_split P reg l1 m l2 :
  picks P reg (l1 ++ m :: l2) ->
  exists r1 r2, reg = r1 ++ m :: r2 /\ P m /\ picks P r1 l1 /\ picks P r2 l2.
Proof.
  intros H. remember (l1 ++ m :: l2) as l eqn:E. revert l1 E.
  induction H; intros l1 E.
  - destruct l1; discriminate.
  - destruct l1 as [|y l1]; simpl in E; injection E as -> E.
    + subst. exists [], reg. repeat split; auto. constructor.
    + destruct (IHpicks _ E) as [r1 [r2 [-> [Hm [H1 H2]]]]].
      exists (y :: r1), r2. repeat split; auto. constructor; auto.
  - destruct (IHpicks _ E) as [r1 [r2 [-> [Hm [H1 H2]]]]].
    exists (m0 :: r1), r2. repeat split; auto. apply picks_skip; auto.
Qed.

Lemma picks_picked cb offered reg :
  picks (candidate cb offered) reg (map snd (filter_map (pick_one cb offered) reg)).
Proof.
  induction reg as [|d r IH]; [constructor|].
  unfold filter_map. simpl. fold (filter_map (pick_one cb offered) r).
  destruct (pick_one cb offered d) as [[s m]|] eqn:E; simpl.
  - pose proof (pick_one_mech _ _ _ _ _ E) as ->. constructor; auto.
    apply pick_one_candidate. eauto.
  - apply picks_skip; auto. rewrite <- pick_one_candidate. intros [x Hx]. congruence.
Qed.

Theorem start_calls reg cb prefer offered l last :
  picks (candidate cb offered) reg l ->
  calls prefer None l last ->
  match last with
  | Some m => if d_has_client m
              then exists i, client_start reg cb prefer offered = Ok (i, m) /\ fresh_client m i
              else client_start reg cb prefer offered = Panic
  | None => client_start reg cb prefer offered = Err NoSharedMechanism
  end.
Proof.
  intros Hl Hc.
  rewrite (picks_fun _ _ _ _ Hl (picks_picked cb offered reg)) in Hc.
  pose proof (fold_calls prefer (filter_map (pick_one cb offered) reg) None) as Hf.
  simpl in Hf. pose proof (calls_fun _ _ _ _ _ Hc Hf) as ->. clear Hc Hf.
  unfold client_start. rewrite registry_select_eq.
  destruct (fold_left _ _ None) as [[s m]|] eqn:E; simpl; [|reflexivity].
  apply fold_in in E. destruct E as [E|E]; [discriminate|].
  apply filter_map_In in E. destruct E as [d [Hd Hp]].
  pose proof (pick_one_mech _ _ _ _ _ Hp) as ->.
  destruct (pick_one_finalize _ _ _ _ _ Hp) as [[j [Ej [Hf [Hcl _]]]]|[c [-> [Hcl Ej]]]]; rewrite Ej.
  - rewrite Hcl. eauto.
  - simpl. rewrite Hcl. reflexivity.
Qed.

Lemma calls_total prefer l a : exists a', calls prefer a l a'.
Proof.
  revert a; induction l as [|b r IH]; intros a; [eexists; constructor|].
  destruct (prefer a b) eqn:E.
  - destruct (IH (Some b)) as [a' H]. exists a'. apply calls_take; [congruence|assumption].
  - destruct (IH (Some b)) as [a' H]. exists a'. apply calls_take; [congruence|assumption].
  - destruct (IH a) as [a' H]. exists a'. apply calls_keep; assumption.
Qed.

Theorem start_called reg cb prefer offered :
  exists l last, picks (candidate cb offered) reg l /\ calls prefer None l last.
Proof.
  destruct (calls_total prefer (map snd (filter_map (pick_one cb offered) reg)) None) as [x H].
  exists (map snd (filter_map (pick_one cb offered) reg)), x.
  split; [apply picks_picked|assumption].
Qed.

Lemma calls_source prefer a l a' m :
  calls prefer a l a' -> a' = Some m -> a = Some m \/ exists o, In m l /\ prefer o m <> Gt.
Proof.
  induction 1; intros E; auto.
  - destruct (IHcalls E) as [?|[o [? ?]]]; auto. right. exists o. simpl. auto.
  - destruct (IHcalls E) as [[= <-]|[o [? ?]]].
    + right. exists a. simpl. auto.
    + right. exists o. simpl. auto.
Qed.

Theorem start_rejected reg cb prefer offered m :
  (forall o, prefer o m = Gt) ->
  forall i, client_start reg cb prefer offered <> Ok (i, m).
Proof.
  intros Hm i H. destruct (start_called reg cb prefer offered) as [l [last [Hl Hc]]].
  pose proof (start_calls _ _ _ _ _ _ Hl Hc) as Hs.
  destruct last as [x|]; [|congruence].
  destruct (d_has_client x); [|congruence]. destruct Hs as [j [Hj _]].
  assert (x = m) as -> by congruence.
  destruct (calls_source _ _ _ _ _ Hc eq_refl) as [?|[o [_ Ho]]]; [discriminate|].
  apply Ho, Hm.
Qed.

Section Rules.
Context (prefer : preference) (ok : mechanism -> Prop) (dec : forall m, ok m \/ ~ ok m)
  (cmp : mechanism -> mechanism -> comparison) (Ht : total_preorder cmp)
  (Hr : follows_rules prefer ok cmp).

Lemma cmp_opp a b : cmp b a = CompOpp (cmp a b).
Proof. destruct Ht as [H _]. apply H. Qed.
Lemma cmp_le a b c : cmp a b <> Gt -> cmp b c <> Gt -> cmp a c <> Gt.
Proof. destruct Ht as [_ H]. apply H. Qed.
Lemma cmp_gt_lt a b : cmp a b = Gt <-> cmp b a = Lt.
Proof. rewrite (cmp_opp a b). destruct (cmp a b); simpl; intuition congruence. Qed.
Lemma cmp_refl a : cmp a a <> Gt.
Proof. intros H. pose proof (proj1 (cmp_gt_lt a a) H). congruence. Qed.
Lemma cmp_lt_le a b c : cmp a b = Lt -> cmp b c <> Gt -> cmp a c = Lt.
Proof.
  intros H1 H2. apply cmp_gt_lt. destruct (cmp c a) eqn:E; auto; exfalso.
  - assert (H3 : cmp b a <> Gt) by (apply cmp_le with (b := c); congruence).
    apply H3. apply cmp_gt_lt. assumption.
  - assert (H3 : cmp b a <> Gt) by (apply cmp_le with (b := c); congruence).
    apply H3. apply cmp_gt_lt. assumption.
Qed.

Lemma calls_greatest a l a' :
  calls prefer a l a' -> (forall x, a = Some x -> ok x) ->
  match a' with
  | None => a = None /\ (forall x, In x l -> ~ ok x)
  | Some m =>
      (a = Some m /\ forall x, In x l -> ok x -> cmp x m = Lt) \/
      (exists l1 l2, l = l1 ++ m :: l2 /\ ok m /\
         (forall x, In x l1 -> ok x -> cmp x m <> Gt) /\
         (forall x, In x l2 -> ok x -> cmp x m = Lt) /\
         (forall y, a = Some y -> cmp y m <> Gt))
  end.
Proof.
  destruct Hr as [Hno [Hnone Hsome]].
  induction 1 as [a|a b l a' Hp Hc IH|a b l a' Hp Hc IH]; intros Ha.
  - destruct a as [x|]; [|simpl; tauto]. left. split; auto. intros y [].
  - specialize (IH Ha).
    assert (Hb : forall y, a = Some y -> ok b -> cmp b y = Lt).
    { intros y -> Hb. rewrite Hsome in Hp by auto. apply cmp_gt_lt. assumption. }
    assert (Hb0 : a = None -> ~ ok b) by (intros -> Hb0; apply (Hnone b Hb0 Hp)).
    destruct a' as [m|].
    + destruct IH as [[-> H]|[l1 [l2 [-> [Hm [H1 [H2 H3]]]]]]].
      * left. split; auto. intros x [<-|Hx] Hk; auto.
      * right. exists (b :: l1), l2. repeat split; auto.
        intros x [<-|Hx] Hk; auto. destruct a as [y|]; [|destruct (Hb0 eq_refl Hk)].
        rewrite (cmp_lt_le _ _ _ (Hb y eq_refl Hk) (H3 y eq_refl)). discriminate.
    + destruct IH as [-> H]. split; auto. intros x [<-|Hx]; auto.
  - assert (Hb : ok b) by (destruct (dec b) as [H|H]; auto; destruct (Hp (Hno a b H))).
    assert (Hab : forall y, a = Some y -> cmp y b <> Gt).
    { intros y ->. rewrite <- Hsome; auto. }
    assert (Hsb : forall x, Some b = Some x -> ok x) by (intros x [= <-]; assumption).
    specialize (IH Hsb).
    destruct a' as [m|]; [|destruct IH; discriminate].
    right. destruct IH as [[[= <-] H]|[l1 [l2 [-> [Hm [H1 [H2 H3]]]]]]].
    + exists [], l. repeat split; auto; intros x [].
    + exists (b :: l1), l2. repeat split; auto.
      * intros x [<-|Hx] Hk; auto.
      * intros y Ey. apply cmp_le with (b := b); auto.
Qed.

Theorem start_greatest reg cb offered i m :
  client_start reg cb prefer offered = Ok (i, m) ->
  greatest cmp (fun x => candidate cb offered x /\ ok x) reg m.
Proof.
  intros H. destruct (start_called reg cb prefer offered) as [l [last [Hl Hc]]].
  pose proof (start_calls _ _ _ _ _ _ Hl Hc) as Hs.
  destruct last as [x|]; [|congruence].
  destruct (d_has_client x); [|congruence]. destruct Hs as [j [Hj _]].
  assert (x = m) as -> by congruence.
  assert (Hn : forall x, None = Some x -> ok x) by discriminate.
  destruct (calls_greatest _ _ _ Hc Hn) as [[H' _]|[l1 [l2 [-> [Hm [H1 [H2 _]]]]]]]; [discriminate|].
  destruct (picks_split _ _ _ _ _ Hl) as [r1 [r2 [-> [Hk [P1 P2]]]]].
  exists r1, r2. repeat split; auto.
  - intros x Hx [Hxc Hxo]. apply H1; auto. apply (picks_In _ _ _ _ P1). auto.
  - intros x Hx [Hxc Hxo]. apply H2; auto. apply (picks_In _ _ _ _ P2). auto.
Qed.

Theorem start_none reg cb offered :
  client_start reg cb prefer offered = Err NoSharedMechanism <->
  (forall m, In m reg -> candidate cb offered m -> ~ ok m).
Proof.
  destruct (start_called reg cb prefer offered) as [l [last [Hl Hc]]].
  pose proof (start_calls _ _ _ _ _ _ Hl Hc) as Hs.
  assert (Hn : forall x, None = Some x -> ok x) by discriminate.
  pose proof (calls_greatest _ _ _ Hc Hn) as Hg.
  destruct last as [x|].
  - split.
    + destruct (d_has_client x); [destruct Hs as [j [Hj _]]|]; congruence.
    + intros H. exfalso. destruct Hg as [[? _]|[l1 [l2 [-> [Hm _]]]]]; [discriminate|].
      assert (Hx : In x (l1 ++ x :: l2)) by (apply in_or_app; right; left; reflexivity).
      apply (picks_In _ _ _ _ Hl) in Hx. destruct Hx as [Hx Hk]. exact (H _ Hx Hk Hm).
  - split; [|intros _; assumption]. intros _ m Hm Hk. destruct Hg as [_ Hg].
    apply Hg. apply (picks_In _ _ _ _ Hl). auto.
Qed.
End Rules.

Lemma bool_dec (ok : mechanism -> bool) m : ok m = true \/ ~ ok m = true.
Proof. destruct (ok m); [left; reflexivity|right; discriminate]. Qed.

Theorem rules_greatest prefer ok cmp :
  total_preorder cmp -> follows_rules prefer (fun m => ok m = true) cmp ->
  forall reg cb offered,
  (forall i m, client_start reg cb prefer offered = Ok (i, m) ->
     greatest cmp (fun x => candidate cb offered x /\ ok x = true) reg m) /\
  (client_start reg cb prefer offered = Err NoSharedMechanism <->
     forall m, In m reg -> candidate cb offered m -> ok m = false).
Proof.
  intros Ht Hr reg cb offered. split.
  - intros i m. apply (start_greatest prefer (fun m => ok m = true) (bool_dec ok) cmp Ht Hr).
  - rewrite (start_none prefer (fun m => ok m = true) (bool_dec ok) cmp Ht Hr).
    split; intros H m Hm Hc; specialize (H m Hm Hc); destruct (ok m); congruence.
Qed.

Lemma priority_preorder :
  total_preorder (fun a b => Nat.compare (d_priority a) (d_priority b)).
Proof.
  split.
  - intros a b. apply Nat.compare_antisym.
  - intros a b c. rewrite !Nat.compare_ngt_iff. intros H1 H2 H3.
    apply H1. eapply Nat.le_lt_trans; [|exact H3]. apply Nat.nlt_ge. exact H2.
Qed.

Lemma default_rules :
  follows_rules default_prefer (fun _ => True)
    (fun a b => Nat.compare (d_priority a) (d_priority b)).
Proof.
  repeat split; intros; try discriminate. tauto.
Qed.
