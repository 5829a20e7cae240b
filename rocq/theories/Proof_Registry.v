(** Lemmas about mechanism selection. *)
From Coq Require Import Lia.
From Verif Require Import Bytes BytesFacts Types World Simple OAuth Scram Gssapi Session
  Registry Spec_Registry.

Definition mem (x : bytes) (l : list bytes) : bool := existsb (bytes_eqb x) l.

Lemma mem_In x l : mem x l = true <-> In x l.
Proof.
  unfold mem. rewrite existsb_exists. split.
  - intros [y [Hy E]]. apply bytes_eqb_eq in E. subst; assumption.
  - intros H. exists x. split; [assumption|apply bytes_eqb_refl].
Qed.
Lemma mem_not_In x l : mem x l = false <-> ~ In x l.
Proof. rewrite <- mem_In. destruct (mem x l); intuition congruence. Qed.

(** What becomes of a selector after all offers. *)
Definition sel_after (offered : list bytes) (s : selection) : selection :=
  match s with
  | NothingMatches d => if mem (d_name d) offered then SelDone d else s
  | NothingScram a SelNo =>
      if mem (scram_plus_name a) offered then NothingScram a SelPlus
      else if mem (scram_name a) offered then NothingScram a SelBare
      else s
  | NothingScram a SelBare =>
      if mem (scram_plus_name a) offered then NothingScram a SelPlus else s
  | s => s
  end.

Lemma fold_map (offered : list bytes) (ss : list selection) :
  fold_left (fun ss o => map (fun s => sel_select s o) ss) offered ss
  = map (fun s => fold_left sel_select offered s) ss.
Proof.
  revert ss; induction offered as [|o r IH]; intros ss; simpl.
  - symmetry. apply map_id.
  - rewrite IH, map_map. reflexivity.
Qed.

Lemma fold_done offered d : fold_left sel_select offered (SelDone d) = SelDone d.
Proof. induction offered; simpl; auto. Qed.
Lemma fold_plus offered a :
  fold_left sel_select offered (NothingScram a SelPlus) = NothingScram a SelPlus.
Proof.
  induction offered as [|o r IH]; simpl; auto.
  destruct (bytes_eqb o (scram_name a)); [apply IH|].
  destruct (bytes_eqb o (scram_plus_name a)); apply IH.
Qed.

Lemma scram_names a : scram_name a <> scram_plus_name a.
Proof. destruct a; discriminate. Qed.

Lemma bytes_eqb_sym a b : bytes_eqb a b = bytes_eqb b a.
Proof.
  destruct (bytes_eqb_spec a b) as [->|N]; [symmetry; apply bytes_eqb_refl|].
  symmetry. apply bytes_eqb_neq. congruence.
Qed.

Lemma fold_sel_after offered s : fold_left sel_select offered s = sel_after offered s.
Proof.
  destruct s as [d|a x|d].
  - simpl. induction offered as [|o r IH]; simpl; auto.
    rewrite (bytes_eqb_sym (d_name d) o). destruct (bytes_eqb o (d_name d)); simpl.
    + apply fold_done.
    + apply IH.
  - assert (Hb : forall r, fold_left sel_select r (NothingScram a SelBare)
                           = sel_after r (NothingScram a SelBare)).
    { induction r as [|o r IH]; simpl; auto.
      rewrite (bytes_eqb_sym (scram_plus_name a) o).
      destruct (bytes_eqb_spec o (scram_name a)) as [->|N].
      - destruct (bytes_eqb_spec (scram_name a) (scram_plus_name a)) as [E|_].
        + destruct (scram_names a E).
        + simpl. apply IH.
      - destruct (bytes_eqb o (scram_plus_name a)); simpl; [apply fold_plus|apply IH]. }
    destruct x; [|apply Hb|apply fold_plus].
    induction offered as [|o r IH]; [reflexivity|]. simpl fold_left. simpl sel_after.
    rewrite (bytes_eqb_sym (scram_plus_name a) o), (bytes_eqb_sym (scram_name a) o).
    destruct (bytes_eqb_spec o (scram_name a)) as [->|N].
    + destruct (bytes_eqb_spec (scram_name a) (scram_plus_name a)) as [E|_].
      * destruct (scram_names a E).
      * simpl. rewrite Hb. reflexivity.
    + destruct (bytes_eqb o (scram_plus_name a)); simpl; [apply fold_plus|apply IH].
  - apply fold_done.
Qed.

(** The selectors that are done, paired with their mechanism. *)
Definition pick_one (cb : bool) (offered : list bytes) (d : mechanism)
  : option (selection * mechanism) :=
  match d_select cb d with
  | None => None
  | Some s => option_map (fun m => (sel_after offered s, m)) (sel_done (sel_after offered s))
  end.

Lemma filter_map_map {A B C} (f : A -> option B) (g : B -> C) l :
  map g (filter_map f l) = filter_map (fun x => option_map g (f x)) l.
Proof.
  unfold filter_map. induction l as [|x r IH]; simpl; auto.
  destruct (f x); simpl; rewrite IH; reflexivity.
Qed.
Lemma filter_map_comp {A B C} (f : A -> option B) (g : B -> option C) l :
  filter_map g (filter_map f l)
  = filter_map (fun x => match f x with Some y => g y | None => None end) l.
Proof.
  unfold filter_map. induction l as [|x r IH]; simpl; auto.
  destruct (f x) as [y|]; simpl; [|assumption].
  destruct (g y); simpl; rewrite IH; reflexivity.
Qed.
Lemma filter_map_ext {A B} (f g : A -> option B) l :
  (forall x, f x = g x) -> filter_map f l = filter_map g l.
Proof.
  intros H. unfold filter_map. induction l as [|x r IH]; simpl; auto. rewrite H, IH. reflexivity.
Qed.
Lemma filter_map_app {A B} (f : A -> option B) a b :
  filter_map f (a ++ b) = filter_map f a ++ filter_map f b.
Proof. apply flat_map_app. Qed.
Lemma filter_map_In {A B} (f : A -> option B) l y :
  In y (filter_map f l) <-> exists x, In x l /\ f x = Some y.
Proof.
  unfold filter_map. rewrite in_flat_map. split.
  - intros [x [Hx Hy]]. exists x. destruct (f x); simpl in Hy; [|contradiction].
    destruct Hy as [->|[]]. auto.
  - intros [x [Hx Hy]]. exists x. rewrite Hy. simpl. auto.
Qed.

Lemma registry_select_eq reg cb offered prefer :
  registry_select reg cb offered prefer =
  match fold_left (sel_fold prefer) (filter_map (pick_one cb offered) reg) None with
  | None => Err NoSharedMechanism
  | Some (s, m) => match sel_finalize s with
                   | Ok i => Ok (i, m) | Err x => Err x | Panic => Panic
                   end
  end.
Proof.
  unfold registry_select. rewrite fold_map, filter_map_map, filter_map_comp.
  rewrite (filter_map_ext _ (pick_one cb offered)); [reflexivity|].
  intros d. unfold pick_one. destruct (d_select cb d) as [s|]; simpl; auto.
  rewrite fold_sel_after. reflexivity.
Qed.

Lemma pick_one_mech cb offered d s m : pick_one cb offered d = Some (s, m) -> m = d.
Proof.
  unfold pick_one. destruct (d_select cb d) as [t|] eqn:E; [|discriminate].
  assert (Hm : forall x, t = NothingMatches x -> sel_after offered t = t \/ sel_after offered t = SelDone x).
  { intros x ->. simpl. destruct (mem (d_name x) offered); auto. }
  destruct d as [a [|]| | | | | | | |c]; simpl in E; try destruct cb; try discriminate;
    injection E as <-; simpl;
    repeat match goal with |- context [mem ?x ?y] => destruct (mem x y) end;
    simpl; congruence.
Qed.

Lemma pick_one_candidate cb offered d :
  (exists x, pick_one cb offered d = Some x) <-> candidate cb offered d.
Proof.
  unfold candidate.
  assert (Hs : forall n (x : selection * mechanism),
     (exists y, (if mem n offered then Some x else None) = Some y)
     <-> exists name, In name offered /\ name = n).
  { intros n x. destruct (mem n offered) eqn:E.
    - apply mem_In in E. split; [intros _; exists n; auto|]. intros _. eauto.
    - apply mem_not_In in E. split; [intros [y H]; discriminate|].
      intros [name [Hn ->]]. contradiction. }
  assert (Hmatch : forall m, d_select cb d = Some (NothingMatches m) ->
     (exists x, pick_one cb offered d = Some x) <-> exists name, In name offered /\ name = d_name m).
  { intros m E. unfold pick_one. rewrite E. simpl.
    rewrite <- (Hs (d_name m) (SelDone m, m)).
    destruct (mem (d_name m) offered); simpl; reflexivity. }
  destruct d as [a [|]| | | | | | | |c]; simpl considered;
    try (lazymatch goal with |- context [pick_one cb offered ?m = _] =>
           exact (Hmatch m eq_refl) end).
  - destruct cb.
    + rewrite (Hmatch (DScram a true) eq_refl). simpl. split.
      * intros [n [Hn ->]]. eauto.
      * intros [n [Hn [_ ->]]]. eauto.
    + unfold pick_one. simpl. split; [intros [x H]; discriminate|].
      intros [n [_ [H _]]]. discriminate.
  - destruct cb.
    + unfold pick_one. simpl.
      destruct (mem (scram_plus_name a) offered) eqn:E1.
      * apply mem_In in E1. simpl. split; intros _; eauto.
      * apply mem_not_In in E1. destruct (mem (scram_name a) offered) eqn:E2; simpl.
        -- apply mem_In in E2. split; intros _; eauto.
        -- apply mem_not_In in E2. split; [intros [x H]; discriminate|].
           intros [n [Hn [-> | [_ ->]]]]; contradiction.
    + rewrite (Hmatch (DScram a false) eq_refl). simpl. split.
      * intros [n [Hn ->]]. eauto.
      * intros [n [Hn [-> | [H _]]]]; [eauto|discriminate].
Qed.

(** The client that is created. *)
Lemma pick_one_finalize cb offered d s m :
  pick_one cb offered d = Some (s, m) ->
  (exists i, sel_finalize s = Ok i /\ fresh_client d i /\ d_has_client d = true /\
     (forall a, d = DScram a false ->
        i = Builtin (XScramC a (Some (ScInitial
              (if cb then if mem (scram_plus_name a) offered then ClientNoSupport
                          else ServerNoSupport
               else ClientNoSupport)))))) \/
  (exists c, d = DCustom c /\ cu_client c = false /\ sel_finalize s = Panic).
Proof.
  unfold pick_one. intros H.
  destruct d as [a [|]| | | | | | | |c]; simpl in H; try destruct cb; try discriminate; simpl in H;
    repeat match type of H with context [mem ?x ?y] => destruct (mem x y) eqn:?; simpl in H end;
    try discriminate; injection H as <- <-; simpl;
    try (left; eexists; repeat split; [constructor; congruence|congruence]);
    try (left; eexists; repeat split; [constructor|congruence]);
    try (left; eexists; repeat split; [constructor; congruence|intros ? [= ->]; auto]);
    try (rewrite Heqb; reflexivity).
  all: destruct (cu_client c) eqn:E;
    [left; eexists; repeat split; [constructor; assumption|congruence]|right; eauto].
Qed.

Lemma fold_in prefer l acc x :
  fold_left (sel_fold prefer) l acc = Some x -> acc = Some x \/ In x l.
Proof.
  revert acc; induction l as [|y r IH]; intros acc H; simpl in H; auto.
  apply IH in H. destruct H as [H|H]; [|right; right; assumption].
  unfold sel_fold in H. destruct (prefer _ _); [right; left|right; left|left]; congruence.
Qed.

(** The chosen mechanism, its instance, or why there is none. *)
Lemma start_inv reg cb prefer offered i m :
  client_start reg cb prefer offered = Ok (i, m) ->
  In m reg /\ candidate cb offered m /\ fresh_client m i /\ d_has_client m = true /\
  (forall a, m = DScram a false ->
     i = Builtin (XScramC a (Some (ScInitial
           (if cb then if mem (scram_plus_name a) offered then ClientNoSupport
                       else ServerNoSupport
            else ClientNoSupport))))).
Proof.
  unfold client_start. rewrite registry_select_eq.
  destruct (fold_left _ _ None) as [[s m']|] eqn:E; [|discriminate].
  apply fold_in in E. destruct E as [E|E]; [discriminate|].
  apply filter_map_In in E. destruct E as [d [Hd Hp]].
  pose proof (pick_one_mech _ _ _ _ _ Hp) as ->.
  pose proof (pick_one_finalize _ _ _ _ _ Hp) as [[j [Ej [Hf [Hc Hs]]]]|[c [-> [_ Ej]]]];
    rewrite Ej; [|discriminate].
  intros [= <- <-]. repeat split; auto.
  apply pick_one_candidate. eauto.
Qed.

Lemma start_err reg cb prefer offered x :
  client_start reg cb prefer offered = Err x ->
  x = NoSharedMechanism /\
  fold_left (sel_fold prefer) (filter_map (pick_one cb offered) reg) None = None.
Proof.
  unfold client_start. rewrite registry_select_eq.
  destruct (fold_left _ _ None) as [[s m']|] eqn:E.
  - apply fold_in in E. destruct E as [E|E]; [discriminate|].
    apply filter_map_In in E. destruct E as [d [Hd Hp]].
    pose proof (pick_one_finalize _ _ _ _ _ Hp) as [[j [Ej _]]|[c [_ [_ Ej]]]];
      rewrite Ej; discriminate.
  - intros [= <-]. auto.
Qed.

Lemma start_panic reg cb prefer offered :
  client_start reg cb prefer offered = Panic ->
  exists c, In (DCustom c) reg /\ cu_client c = false /\ In (cu_name c) offered.
Proof.
  unfold client_start. rewrite registry_select_eq.
  destruct (fold_left _ _ None) as [[s m']|] eqn:E; [|discriminate].
  apply fold_in in E. destruct E as [E|E]; [discriminate|].
  apply filter_map_In in E. destruct E as [d [Hd Hp]].
  pose proof (pick_one_finalize _ _ _ _ _ Hp) as [[j [Ej _]]|[c [-> [Hc Ej]]]];
    rewrite Ej; [discriminate|]. intros _.
  exists c. repeat split; auto.
  assert (Hk : candidate cb offered (DCustom c)) by (apply pick_one_candidate; eauto).
  destruct Hk as [n [Hn Hc']]. simpl in Hc'. subst n. assumption.
Qed.

(** * C04 *)
Lemma mem_ext x o1 o2 : (forall y, In y o1 <-> In y o2) -> mem x o1 = mem x o2.
Proof.
  intros H. destruct (mem x o1) eqn:E1; symmetry.
  - apply mem_In. apply H. apply mem_In. assumption.
  - apply mem_not_In. rewrite <- H. apply mem_not_In. assumption.
Qed.

Theorem start_set reg cb prefer o1 o2 :
  (forall y, In y o1 <-> In y o2) ->
  client_start reg cb prefer o1 = client_start reg cb prefer o2.
Proof.
  intros H. unfold client_start. rewrite !registry_select_eq.
  rewrite (filter_map_ext (pick_one cb o1) (pick_one cb o2)); [reflexivity|].
  intros d. unfold pick_one. destruct (d_select cb d) as [s|]; auto.
  replace (sel_after o1 s) with (sel_after o2 s); [reflexivity|].
  destruct s as [m|a []|m]; simpl; auto; rewrite ?(mem_ext _ o1 o2 H); reflexivity.
Qed.

(** * C03, C05: the fold with the default preference *)
Definition prio (sm : selection * mechanism) : nat := d_priority (snd sm).

Lemma fold_default l acc :
  match fold_left (sel_fold default_prefer) l acc with
  | None => acc = None /\ l = []
  | Some x =>
      (acc = Some x /\ (forall y, In y l -> prio y < prio x)) \/
      (exists l1 l2, l = l1 ++ x :: l2 /\ (forall y, In y l1 -> prio y <= prio x) /\
         (forall y, In y l2 -> prio y < prio x) /\
         (forall y, acc = Some y -> prio y <= prio x))
  end.
Proof.
  revert acc; induction l as [|z r IH]; intros acc; simpl.
  - destruct acc as [x|]; auto. left. split; auto. intros y [].
  - specialize (IH (sel_fold default_prefer acc z)).
    destruct (fold_left _ r _) as [x|] eqn:E.
    + unfold sel_fold in IH. destruct acc as [o|]; simpl in IH.
      * destruct (Nat.compare_spec (d_priority (snd o)) (d_priority (snd z))) as [C|C|C].
        -- destruct IH as [[Hx Hr]|[l1 [l2 [-> [H1 [H2 H3]]]]]].
           ++ injection Hx as ->. right. exists [], r. repeat split; auto.
              ** intros y [].
              ** intros y [= <-]. unfold prio in *. lia.
           ++ right. exists (z :: l1), l2. repeat split; auto.
              ** intros y [<-|Hy]; auto.
              ** intros y [= <-]. specialize (H3 z eq_refl). unfold prio in *. lia.
        -- destruct IH as [[Hx Hr]|[l1 [l2 [-> [H1 [H2 H3]]]]]].
           ++ injection Hx as ->. right. exists [], r. repeat split; auto.
              ** intros y [].
              ** intros y [= <-]. unfold prio in *. lia.
           ++ right. exists (z :: l1), l2. repeat split; auto.
              ** intros y [<-|Hy]; auto.
              ** intros y [= <-]. specialize (H3 z eq_refl). unfold prio in *. lia.
        -- destruct IH as [[Hx Hr]|[l1 [l2 [-> [H1 [H2 H3]]]]]].
           ++ left. split; auto. injection Hx as ->. intros y [<-|Hy]; auto.
           ++ right. exists (z :: l1), l2. repeat split; auto.
              intros y [<-|Hy]; auto. specialize (H3 o eq_refl). unfold prio in *. lia.
      * destruct IH as [[Hx Hr]|[l1 [l2 [-> [H1 [H2 H3]]]]]].
        -- injection Hx as ->. right. exists [], r. repeat split; auto.
           ++ intros y [].
           ++ discriminate.
        -- right. exists (z :: l1), l2. repeat split; auto.
           ++ intros y [<-|Hy]; auto.
           ++ discriminate.
    + destruct IH as [Hn ->]. unfold sel_fold in Hn.
      destruct acc as [o|]; simpl in Hn; [destruct (Nat.compare _ _)|]; discriminate.
Qed.

Lemma filter_map_split {A B} (f : A -> option B) l l1 x l2 :
  filter_map f l = l1 ++ x :: l2 ->
  exists a y b, l = a ++ y :: b /\ f y = Some x /\ filter_map f a = l1 /\ filter_map f b = l2.
Proof.
  revert l1; induction l as [|z r IH]; intros l1 H.
  - destruct l1; discriminate.
  - unfold filter_map in H. simpl in H. fold (filter_map f r) in H.
    destruct (f z) as [w|] eqn:E; simpl in H.
    + destruct l1 as [|w' l1]; simpl in H.
      * injection H as -> H. exists [], z, r. auto.
      * injection H as -> H. destruct (IH _ H) as [a [y [b [-> [Hy [Ha Hb]]]]]].
        exists (z :: a), y, b. repeat split; auto. unfold filter_map. simpl. rewrite E. simpl.
        f_equal. exact Ha.
    + destruct (IH _ H) as [a [y [b [-> [Hy [Ha Hb]]]]]].
      exists (z :: a), y, b. repeat split; auto. unfold filter_map. simpl. rewrite E. exact Ha.
Qed.

Theorem default_best reg cb offered i m :
  client_start reg cb default_prefer offered = Ok (i, m) ->
  best (candidate cb offered) reg m.
Proof.
  intros H0. unfold client_start in H0. rewrite registry_select_eq in H0.
  pose proof (fold_default (filter_map (pick_one cb offered) reg) None) as H.
  destruct (fold_left _ _ None) as [[s m']|]; [|discriminate].
  assert (m' = m) as -> by (destruct (sel_finalize s); congruence). clear H0.
  destruct H as [[H _]|[l1 [l2 [E [H1 [H2 _]]]]]]; [discriminate|].
  apply filter_map_split in E. destruct E as [a [y [b [-> [Hy [<- <-]]]]]].
  pose proof (pick_one_mech _ _ _ _ _ Hy) as ->.
  exists a, b. split; [reflexivity|]. split; [apply pick_one_candidate; eauto|].
  assert (Hx : forall x l, In x l -> candidate cb offered x ->
     exists sx, In (sx, x) (filter_map (pick_one cb offered) l)).
  { intros x l Hx Hc. apply pick_one_candidate in Hc. destruct Hc as [[sx x'] Hc].
    pose proof (pick_one_mech _ _ _ _ _ Hc) as ->. exists sx. apply filter_map_In. eauto. }
  split; intros x Hin Hc; destruct (Hx _ _ Hin Hc) as [sx Hs].
  - apply (H1 _ Hs).
  - apply (H2 _ Hs).
Qed.

Theorem default_none reg cb offered :
  (exists x, client_start reg cb default_prefer offered = Err x) <->
  (forall m, In m reg -> ~ candidate cb offered m).
Proof.
  split.
  - intros [x H]. apply start_err in H. destruct H as [_ H].
    pose proof (fold_default (filter_map (pick_one cb offered) reg) None) as Hd.
    rewrite H in Hd. destruct Hd as [_ Hd]. intros m Hm Hc.
    apply pick_one_candidate in Hc. destruct Hc as [y Hy].
    assert (In y (filter_map (pick_one cb offered) reg)) by (apply filter_map_In; eauto).
    rewrite Hd in *. contradiction.
  - intros H. exists NoSharedMechanism. unfold client_start. rewrite registry_select_eq.
    destruct (filter_map (pick_one cb offered) reg) as [|y r] eqn:E; [reflexivity|].
    assert (Hy : In y (filter_map (pick_one cb offered) reg)) by (rewrite E; left; reflexivity).
    apply filter_map_In in Hy. destruct Hy as [m [Hm Hp]].
    destruct (H m Hm). apply pick_one_candidate. eauto.
Qed.

Theorem greater_none reg cb offered prefer :
  (forall o m, prefer o m = Gt) ->
  client_start reg cb prefer offered = Err NoSharedMechanism.
Proof.
  intros H. unfold client_start. rewrite registry_select_eq.
  assert (E : forall l, fold_left (sel_fold prefer) l None = None).
  { induction l as [|x r IH]; simpl; auto. unfold sel_fold at 2. rewrite H. exact IH. }
  rewrite E. reflexivity.
Qed.

Theorem builtin_no_panic reg cb offered prefer :
  Forall is_builtin reg -> client_start reg cb prefer offered <> Panic.
Proof.
  intros H E. apply start_panic in E. destruct E as [c [Hc _]].
  rewrite Forall_forall in H. exact (H _ Hc).
Qed.

Theorem never_unoffered reg cb prefer offered i m :
  client_start reg cb prefer offered = Ok (i, m) ->
  (forall a, m = DScram a false -> cb = true -> In (scram_plus_name a) offered ->
     In (scram_name a) offered) ->
  In m reg /\ d_has_client m = true /\ fresh_client m i /\ In (d_name m) offered.
Proof.
  intros H Hs. apply start_inv in H. destruct H as [H1 [[n [Hn Hc]] [H3 [H4 _]]]].
  repeat split; auto.
  destruct m as [a [|]| | | | | | | |c]; simpl in Hc |- *; subst; auto.
  - destruct Hc as [_ ->]. assumption.
  - destruct Hc as [->|[-> ->]]; [assumption|]. apply Hs; auto.
Qed.

(** * C06 *)
Theorem server_exact reg name :
  (forall i m, server_start reg name = Ok (i, m) <->
     first_server reg name m /\ fresh_server reg m i) /\
  (server_start reg name = Err NoSharedMechanism <->
     forall m, In m reg -> d_has_server m = true -> d_name m <> name) /\
  server_start reg name <> Panic.
Proof.
  assert (Hf : forall l m, find (fun m => bytes_eqb (d_name m) name) (filter d_has_server l) = Some m
     <-> first_server l name m).
  { induction l as [|x r IH]; intros m; simpl.
    - split; [discriminate|]. intros [[|] [l2 [E _]]]; discriminate.
    - destruct (d_has_server x) eqn:Hx; simpl.
      + destruct (bytes_eqb_spec (d_name x) name) as [E|N].
        * split.
          -- intros [= <-]. exists [], r. repeat split; auto; intros y [].
          -- intros [[|y l1] [l2 [El [Hn [Hm Hl]]]]]; simpl in El; injection El as -> El.
             ++ reflexivity.
             ++ exfalso. apply (Hl y); auto. left; reflexivity.
        * rewrite IH. split.
          -- intros [l1 [l2 [-> [Hn [Hm Hl]]]]]. exists (x :: l1), l2. repeat split; auto.
             intros y [<-|Hy]; auto.
          -- intros [[|y l1] [l2 [El [Hn [Hm Hl]]]]]; simpl in El; injection El as -> El.
             ++ contradiction.
             ++ exists l1, l2. repeat split; auto. intros z Hz. apply Hl. right; assumption.
      + rewrite IH. split.
        * intros [l1 [l2 [-> [Hn [Hm Hl]]]]]. exists (x :: l1), l2. repeat split; auto.
          intros y [<-|Hy]; auto. congruence.
        * intros [[|y l1] [l2 [El [Hn [Hm Hl]]]]]; simpl in El; injection El as -> El.
          -- congruence.
          -- exists l1, l2. repeat split; auto. intros z Hz. apply Hl. right; assumption. }
  assert (Hs : forall m i, d_server reg m = Some i -> fresh_server reg m i).
  { intros [a [|]| | | | | | | |c] i H; simpl in H; try (injection H as <-; constructor).
    - rewrite existsb_exists. split.
      + intros [x [Hx E]]. apply bytes_eqb_eq in E. eauto.
      + intros [x [Hx E]]. exists x. split; [assumption|]. apply bytes_eqb_eq. assumption.
    - destruct (cu_server c) eqn:E; [|discriminate]. injection H as <-. constructor; assumption. }
  assert (Hs' : forall m i j, fresh_server reg m i -> fresh_server reg m j -> i = j).
  { intros m i j H1 H2. inversion H1; subst; inversion H2; subst; auto.
    do 4 f_equal. destruct plus, plus0; intuition congruence. }
  assert (Hd : forall m, d_has_server m = true -> exists i, d_server reg m = Some i).
  { intros [a [|]| | | | | | | |c]; simpl; eauto. intros ->. eauto. }
  unfold server_start, get_available.
  destruct (find _ _) as [m|] eqn:E.
  - assert (Hm : d_has_server m = true).
    { apply Hf in E. destruct E as [? [? [_ [_ [H _]]]]]. exact H. }
    destruct (Hd m Hm) as [i Hi]. rewrite Hi. split; [|split].
    + intros i' m'. split.
      * intros [= <- <-]. split; [apply Hf; assumption|apply Hs; assumption].
      * intros [H1 H2]. apply Hf in H1. assert (m = m') by congruence. subst m'.
        rewrite (Hs' m i i'); auto.
    + split; [discriminate|]. intros H. apply Hf in E.
      destruct E as [l1 [l2 [-> [Hn [Hh _]]]]]. destruct (H m); auto.
      apply in_or_app. right; left; reflexivity.
    + discriminate.
  - split; [|split].
    + intros i m. split; [discriminate|]. intros [H _]. apply Hf in H. congruence.
    + split; [|reflexivity]. intros _ m Hm Hh Hn. apply find_none with (x := m) in E.
      * apply bytes_eqb_neq in E. contradiction.
      * apply filter_In. auto.
    + discriminate.
Qed.

(** * Counterexamples *)
Theorem plus_only_offer a prefer :
  (forall m, prefer None m <> Gt) ->
  exists i, client_start [DScram a false] true prefer [scram_plus_name a] = Ok (i, DScram a false)
    /\ ~ In (d_name (DScram a false)) [scram_plus_name a].
Proof.
  intros Hp. exists (Builtin (scram_client_new a true)). split.
  - specialize (Hp (DScram a false)).
    unfold client_start. rewrite registry_select_eq.
    replace (filter_map _ _) with [(NothingScram a SelPlus, DScram a false)]
      by (destruct a; reflexivity).
    simpl fold_left. unfold sel_fold. simpl. destruct (prefer None (DScram a false)); first [reflexivity|congruence].
  - simpl. intros [H|[]]. symmetry in H. exact (scram_names a H).
Qed.

Theorem custom_panics c :
  cu_client c = false ->
  client_start [DCustom c] false default_prefer [cu_name c] = Panic.
Proof.
  intros H. unfold client_start. rewrite registry_select_eq. unfold filter_map, pick_one. simpl.
  unfold mem. simpl. rewrite bytes_eqb_refl. simpl. rewrite H. reflexivity.
Qed.
