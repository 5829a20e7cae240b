(** Lemmas about selection with mechanisms of other crates. *)
From Verif Require Import Bytes BytesFacts Types World Simple OAuth Scram Gssapi Session Registry
  Spec_Registry Proof_Registry Selectors Spec_Selectors.

Definition tell {R A} (offered : list bytes) (g : gselection R A) : gselection R A :=
  fold_left g_select offered g.

Lemma tell_map {R A} offered (ss : list (gselection R A)) :
  fold_left (fun ss o => map (fun g => g_select g o) ss) offered ss = map (tell offered) ss.
Proof.
  revert ss; induction offered as [|o os IH]; intros ss; cbn [fold_left].
  - unfold tell. cbn. rewrite map_id. reflexivity.
  - rewrite IH, map_map. reflexivity.
Qed.

Lemma tell_chosen {R A} os (r : R) : tell os (GChosen r : gselection R A) = GChosen r.
Proof. induction os; [reflexivity|exact IHos]. Qed.

Lemma tell_answer {R A} (g : gselection R A) os :
  answer g os (fst (g_done (tell os g))) (snd (g_done (tell os g))).
Proof.
  revert g; induction os as [|o os IH]; intros [T s sel dn fin|r].
  - cbn. destruct (dn s) as [s' x] eqn:E. cbn. apply an_end. exact E.
  - constructor.
  - unfold tell. cbn [fold_left g_select]. destruct (sel s o) as [s' [r|]] eqn:E.
    + fold (tell os (GChosen r : gselection R A)). rewrite tell_chosen. cbn. econstructor. exact E.
    + eapply an_miss; [exact E|]. apply IH.
  - rewrite tell_chosen. constructor.
Qed.

Lemma answer_fun {R A} (g : gselection R A) os g1 r1 :
  answer g os g1 r1 -> g1 = fst (g_done (tell os g)) /\ r1 = snd (g_done (tell os g)).
Proof.
  induction 1.
  - rewrite tell_chosen. auto.
  - unfold tell. cbn [fold_left g_select]. rewrite H.
    fold (tell os (GChosen r : gselection R A)). rewrite tell_chosen. auto.
  - unfold tell in *. cbn [fold_left g_select]. rewrite H. exact IHanswer.
  - unfold tell. cbn. rewrite H. auto.
Qed.

Definition ready {R A} (st : statics R A) cb offered (reg : list R) : list (gselection R A * R) :=
  filter_map (fun g => match g_done g with
                       | (g', Some m) => Some (g', m)
                       | (_, None) => None
                       end) (map (tell offered) (filter_map (fun m => st_select st m cb) reg)).

Lemma ready_cons {R A} (st : statics R A) cb offered m reg :
  ready st cb offered (m :: reg) =
  match st_select st m cb with
  | None => []
  | Some g => match g_done (tell offered g) with
              | (g', Some r) => [(g', r)]
              | (_, None) => []
              end
  end ++ ready st cb offered reg.
Proof.
  unfold ready, filter_map. cbn [flat_map]. destruct (st_select st m cb) as [g|]; [|reflexivity].
  cbn [app map flat_map]. destruct (g_done (tell offered g)) as [g' [r|]]; reflexivity.
Qed.

Lemma ready_app {R A} (st : statics R A) cb offered l1 l2 :
  ready st cb offered (l1 ++ l2) = ready st cb offered l1 ++ ready st cb offered l2.
Proof.
  induction l1 as [|m l1 IH]; [reflexivity|]. cbn [app]. rewrite !ready_cons, IH, app_assoc. reflexivity.
Qed.

Lemma ready_willing {R A} (st : statics R A) cb offered reg :
  willing st cb offered reg (ready st cb offered reg).
Proof.
  induction reg as [|m reg IH]; [constructor|]. rewrite ready_cons.
  destruct (st_select st m cb) as [g|] eqn:E; [|apply wi_off; assumption].
  pose proof (tell_answer g offered) as H.
  destruct (g_done (tell offered g)) as [g' [r|]]; cbn [fst snd] in H; cbn [app].
  - eapply wi_yes; eassumption.
  - eapply wi_no; eassumption.
Qed.

Lemma willing_fun {R A} (st : statics R A) cb offered reg l :
  willing st cb offered reg l -> l = ready st cb offered reg.
Proof.
  induction 1; rewrite ?ready_cons.
  - reflexivity.
  - rewrite H. exact IHwilling.
  - rewrite H. apply answer_fun in H0. destruct H0 as [_ E].
    destruct (g_done (tell offered g)) as [x y]. cbn in E. subst y. exact IHwilling.
  - rewrite H. apply answer_fun in H0. destruct H0 as [E1 E2].
    destruct (g_done (tell offered g)) as [x y]. cbn in E1, E2. subst. reflexivity.
Qed.

Lemma fold_asked {R A} (prefer : option R -> R -> comparison) (l : list (gselection R A * R)) acc :
  asked prefer acc l (fold_left (g_fold prefer) l acc).
Proof.
  revert acc; induction l as [|[g r] l IH]; intros acc; cbn [fold_left]; [constructor|].
  unfold g_fold at 2. cbn [snd]. destruct (prefer (option_map snd acc) r) eqn:E.
  - apply as_take; [congruence|apply IH].
  - apply as_take; [congruence|apply IH].
  - apply as_keep; [exact E|apply IH].
Qed.

Lemma asked_fun {R A} prefer a (l : list (gselection R A * R)) x y :
  asked prefer a l x -> asked prefer a l y -> x = y.
Proof. intros H; revert y; induction H; intros y Hy; inversion Hy; subst; auto; congruence. Qed.

Lemma started_fun {R A} (st : statics R A) g x : started st g x -> x = g_finalize st g.
Proof. intros []; cbn; try rewrite H; reflexivity. Qed.

Lemma select_ready {R A} (st : statics R A) reg cb offered prefer :
  g_registry_select st reg cb offered prefer =
  match fold_left (g_fold prefer) (ready st cb offered reg) None with
  | None => Err NoSharedMechanism
  | Some (g, m) => match g_finalize st g with Ok i => Ok (i, m) | Err x => Err x | Panic => Panic end
  end.
Proof. unfold g_registry_select. rewrite tell_map. reflexivity. Qed.

Theorem outcome R A (st : statics R A) reg cb offered prefer l last :
  willing st cb offered reg l -> asked prefer None l last ->
  match last with
  | None => g_registry_select st reg cb offered prefer = Err NoSharedMechanism
  | Some (g, m) => forall x, started st g x ->
      match x with
      | Ok i => g_registry_select st reg cb offered prefer = Ok (i, m)
      | Err _ => g_registry_select st reg cb offered prefer = Err NoSharedMechanism
      | Panic => g_registry_select st reg cb offered prefer = Panic
      end
  end.
Proof.
  intros Hw Ha. apply willing_fun in Hw. subst l.
  pose proof (asked_fun _ _ _ _ _ Ha (fold_asked prefer _ None)) as ->. rewrite select_ready.
  destruct (fold_left _ _ None) as [[g m]|]; [|reflexivity].
  intros x Hx. apply started_fun in Hx. subst x. destruct (g_finalize st g) as [i|[]|]; reflexivity.
Qed.

Theorem determined R A (st : statics R A) reg cb offered prefer :
  exists l last, willing st cb offered reg l /\ asked prefer None l last /\
    match last with None => True | Some (g, _) => exists x, started st g x end.
Proof.
  exists (ready st cb offered reg). eexists. split; [apply ready_willing|].
  split; [apply fold_asked|]. destruct (fold_left _ _ None) as [[g m]|]; [|exact I].
  destruct g as [T s sel dn fin|r]; [eexists; constructor|].
  destruct (st_client st r) eqn:E; eexists; [apply sd_chosen|apply sd_none]; eassumption.
Qed.

Theorem silent_away R A (st : statics R A) l1 m l2 cb offered prefer :
  silent st cb offered m ->
  g_registry_select st (l1 ++ m :: l2) cb offered prefer
  = g_registry_select st (l1 ++ l2) cb offered prefer.
Proof.
  intros H. rewrite !select_ready, !ready_app, ready_cons.
  destruct (st_select st m cb) as [g|] eqn:E; [|reflexivity].
  pose proof (H g _ _ E (tell_answer g offered)) as N.
  destruct (g_done (tell offered g)) as [g' x]. cbn in N. subst x. reflexivity.
Qed.

(** * rsasl's own mechanisms *)

(** The two models of a selection. *)
Definition rel (s : selection) (g : gselection mechanism inst) : Prop :=
  match s with
  | NothingMatches d => g = matches d
  | NothingScram a x => g = scram_selector a x
  | SelDone d => g = GChosen d
  end.

Lemma rel_select s g o : rel s g -> rel (sel_select s o) (g_select g o).
Proof.
  destruct s as [d|a x|d]; cbn [rel sel_select].
  - intros ->. cbn. destruct (bytes_eqb o (d_name d)); reflexivity.
  - intros ->. cbn.
    destruct (bytes_eqb o (scram_name a)); [|destruct (bytes_eqb o (scram_plus_name a))]; reflexivity.
  - intros ->. reflexivity.
Qed.

Lemma rel_tell os s g : rel s g -> rel (fold_left sel_select os s) (tell os g).
Proof.
  revert s g; induction os as [|o os IH]; intros s g H; [exact H|].
  unfold tell. cbn [fold_left]. apply IH. apply rel_select. exact H.
Qed.

Lemma rel_done s g : rel s g -> exists g', g_done g = (g', sel_done s) /\ rel s g'.
Proof.
  destruct s as [d|a x|d]; cbn [rel].
  - intros ->. eexists. split; reflexivity.
  - intros ->. exists (scram_selector a x). split; [destruct x; reflexivity|reflexivity].
  - intros ->. eexists. split; reflexivity.
Qed.

Lemma rel_finalize s g : rel s g -> g_finalize own_statics g = sel_finalize s.
Proof.
  destruct s as [d|a x|d]; cbn [rel].
  - intros ->. reflexivity.
  - intros ->. destruct x; reflexivity.
  - intros ->. cbn. destruct (d_client d); reflexivity.
Qed.

Definition rel2 (p : selection * mechanism) (q : gselection mechanism inst * mechanism) : Prop :=
  rel (fst p) (fst q) /\ snd p = snd q.

Lemma own_select d cb : match d_select cb d, st_select own_statics d cb with
  | None, None => True
  | Some s, Some g => rel s g
  | _, _ => False
  end.
Proof.
  destruct d as [a []| | | | | | | |c], cb; cbn; auto.
Qed.

Lemma tell_old offered ss :
  fold_left (fun ss o => map (fun s => sel_select s o) ss) offered ss
  = map (fun s => fold_left sel_select offered s) ss.
Proof.
  revert ss; induction offered as [|o os IH]; intros ss; cbn [fold_left].
  - rewrite map_id. reflexivity.
  - rewrite IH, map_map. reflexivity.
Qed.

Lemma ready_own cb offered reg :
  Forall2 rel2
    (filter_map (fun s => option_map (fun m => (s, m)) (sel_done s))
       (map (fun s => fold_left sel_select offered s) (filter_map (d_select cb) reg)))
    (ready own_statics cb offered reg).
Proof.
  induction reg as [|d reg IH]; [constructor|]. rewrite ready_cons.
  unfold filter_map in *. cbn [flat_map]. pose proof (own_select d cb) as H.
  destruct (d_select cb d) as [s|], (st_select own_statics d cb) as [g|]; try contradiction;
    [|exact IH].
  cbn [app map flat_map]. pose proof (rel_tell offered s g H) as Ht.
  destruct (rel_done _ _ Ht) as [g' [E Hg]]. rewrite E.
  destruct (sel_done (fold_left sel_select offered s)) as [m|]; cbn [option_map app]; [|exact IH].
  constructor; [split; [exact Hg|reflexivity]|exact IH].
Qed.

Definition rel3 p q : Prop :=
  match p, q with
  | None, None => True
  | Some p, Some q => rel2 p q
  | _, _ => False
  end.

Lemma fold_rel prefer l l' acc acc' : Forall2 rel2 l l' -> rel3 acc acc' ->
  rel3 (fold_left (sel_fold prefer) l acc) (fold_left (g_fold prefer) l' acc').
Proof.
  intros H; revert acc acc'; induction H as [|p q l l' Hp Hl IH]; intros acc acc' Ha; [exact Ha|].
  cbn [fold_left]. apply IH. unfold sel_fold, g_fold.
  replace (option_map snd acc') with (option_map snd acc).
  2:{ destruct acc as [x|], acc' as [y|]; try contradiction; [|reflexivity].
      cbn. f_equal. apply Ha. }
  destruct Hp as [Hr Hs]. rewrite <- Hs.
  destruct (prefer _ _); try exact Ha; (split; [exact Hr|exact Hs]).
Qed.

Theorem own_same reg cb offered prefer :
  g_registry_select own_statics reg cb offered prefer = client_start reg cb prefer offered.
Proof.
  rewrite select_ready. unfold client_start, registry_select. rewrite tell_old.
  pose proof (fold_rel prefer _ _ None None (ready_own cb offered reg) I) as H.
  destruct (fold_left (sel_fold prefer) _ None) as [[s m]|],
    (fold_left (g_fold prefer) _ None) as [[g m']|]; try contradiction; [|reflexivity].
  destruct H as [Hr Hm]. cbn in Hr, Hm. subst m'. rewrite (rel_finalize _ _ Hr). reflexivity.
Qed.

(** * The error *)

Lemma answer_can {R A} (g : gselection R A) os g' r :
  answer g os g' r -> can_start g -> can_start g'.
Proof. induction 1; cbn; auto. Qed.

Lemma asked_in {R A} prefer a (l : list (gselection R A * R)) x :
  asked prefer a l (Some x) -> a = Some x \/ In x l.
Proof.
  intros H. remember (Some x) as y eqn:E. revert E. induction H; intros ->; cbn.
  - auto.
  - destruct (IHasked eq_refl); auto.
  - destruct (IHasked eq_refl) as [E|E]; [injection E as <-|]; auto.
Qed.

Theorem error_means R A (st : statics R A) reg cb offered prefer l :
  (forall r x, st_client st r <> Some (Err x)) ->
  (forall m g, In m reg -> st_select st m cb = Some g -> can_start g) ->
  willing st cb offered reg l ->
  (g_registry_select st reg cb offered prefer = Err NoSharedMechanism <-> asked prefer None l None).
Proof.
  intros Hc Hf Hw. pose proof (willing_fun _ _ _ _ _ Hw) as El. rewrite select_ready, <- El.
  pose proof (fold_asked prefer l None) as Ha.
  destruct (fold_left (g_fold prefer) l None) as [[g m]|]; [|tauto].
  split; intros H.
  2:{ discriminate (asked_fun _ _ _ _ _ Ha H). }
  exfalso. destruct (asked_in _ _ _ _ Ha) as [E|Hi]; [discriminate E|].
  assert (Hg : can_start g).
  { clear - Hf Hw Hi. induction Hw; [contradiction|..].
    - apply IHHw; [|exact Hi]. intros ? ? ?. apply Hf. right. assumption.
    - apply IHHw; [|exact Hi]. intros ? ? ?. apply Hf. right. assumption.
    - destruct Hi as [E|Hi].
      + injection E as -> ->. eapply answer_can; [exact H0|]. eapply Hf; [left; reflexivity|exact H].
      + apply IHHw; [|exact Hi]. intros ? ? ?. apply Hf. right. assumption. }
  destruct g as [T s sel dn fin|r]; cbn in H.
  - specialize (Hg s). destruct (fin s); try discriminate H. exact (Hg _ eq_refl).
  - destruct (st_client st r) as [[i|x|]|] eqn:E; try discriminate H. exact (Hc _ _ E).
Qed.
