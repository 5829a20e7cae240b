(** Lemmas about the features a program is built with. *)
From Coq Require Import Lia Permutation.
From Verif Require Import Bytes Utf8 Types World CallbackSpec Num Simple OAuth ScramParser Scram Gssapi Session Registry Apps
  Interop Features Spec_Simple Spec_OAuth Spec_ScramText Spec_Scram Spec_Registry Spec_Order Spec_History Spec_Talk
  Spec_Creds Spec_Features Proof_Registry Proof_Order Proof_Creds.

(** * Contents of the registries *)

Ltac features f := destruct f as [b1 b2 b3 b4 b5 b6 b7 b8 b9 b10].

Lemma default_filter f : default_of f = filter (compiled f) builtin_registry.
Proof. features f. destruct b1, b2, b3, b4, b5, b6, b7, b8; reflexivity. Qed.
Lemma credentials_filter f z : credentials_of f z = filter (compiled f) (credentials_registry z).
Proof. features f. destruct z, b1, b2, b5, b6; reflexivity. Qed.

Lemma registered f reg m : default_registry f reg ->
  In m reg <-> compiled f m = true /\ (forall a, m <> DScram a true) /\ (m = DGssapi -> ft_static f = true).
Proof.
  intros H. destruct default_registry_complete as [_ C].
  assert (D : In m (default_of f) <-> compiled f m = true /\ (forall a, m <> DScram a true) /\ m <> DGssapi).
  { rewrite default_filter, filter_In, C. split; [tauto|]. intros (A & B & G). split; [|exact A].
    split; [|split; assumption]. destruct m; try exact I. discriminate A. }
  unfold default_registry in H. destruct (ft_static f) eqn:S.
  - assert (E : In m reg <-> In m (linked f)).
    { split; [apply Permutation_in; exact H|apply Permutation_in; symmetry; exact H]. }
    rewrite E. unfold linked. rewrite in_app_iff, D. unfold cfg. split.
    + intros [(A & B & G)|G]; [tauto|]. destruct (ft_gssapi f) eqn:Fg; [|destruct G].
      destruct G as [<-|[]]. split; [exact Fg|]. split; [discriminate|reflexivity].
    + intros (A & B & _). destruct m; try (left; split; [exact A|split; [exact B|discriminate]]).
      cbn [compiled] in A. rewrite A. right. left. reflexivity.
  - subst reg. rewrite D. split; [intros (A & B & G); split; [exact A|split; [exact B|intros X; destruct (G X)]]|].
    intros (A & B & G). split; [exact A|]. split; [exact B|]. intros X. discriminate (G X).
Qed.
Lemma registered_builtin f reg : default_registry f reg -> Forall is_builtin reg.
Proof.
  intros H. apply Forall_forall. intros m I. apply (registered f reg m H) in I. destruct I as [C _].
  destruct m; try exact Logic.I. discriminate C.
Qed.
Lemma registered_more f g reg reg' : enables f g -> default_registry f reg -> default_registry g reg' -> incl reg reg'.
Proof.
  intros [E1 E2] Hf Hg m I. apply (registered f reg m Hf) in I. apply (registered g reg' m Hg).
  destruct I as (A & B & G). auto.
Qed.

(** * Clients *)

Theorem more_still_starts reg reg' cb offered i m :
  incl reg reg' -> Forall is_builtin reg' ->
  client_start reg cb default_prefer offered = Ok (i, m) ->
  exists i' m', client_start reg' cb default_prefer offered = Ok (i', m') /\ d_priority m <= d_priority m'.
Proof.
  intros Hi Hb H. pose proof (default_best _ _ _ _ _ H) as B.
  destruct B as (l1 & l2 & E & Cm & _).
  assert (Im : In m reg') by (apply Hi; rewrite E; apply in_or_app; right; left; reflexivity).
  destruct (client_start reg' cb default_prefer offered) as [[i' m']|x|] eqn:H'.
  - exists i', m'. split; [reflexivity|]. apply (best_priority _ _ _ _ (default_best _ _ _ _ _ H') Im Cm).
  - exfalso. apply (proj1 (default_none reg' cb offered) (ex_intro _ x H') m Im Cm).
  - exfalso. exact (builtin_no_panic _ _ _ _ Hb H').
Qed.

Theorem features_add f g reg reg' cb offered i m :
  enables f g -> default_registry f reg -> default_registry g reg' ->
  client_start reg cb default_prefer offered = Ok (i, m) ->
  exists i' m', client_start reg' cb default_prefer offered = Ok (i', m') /\ d_priority m <= d_priority m'.
Proof.
  intros E Hf Hg. apply more_still_starts; [exact (registered_more _ _ _ _ E Hf Hg)|exact (registered_builtin _ _ Hg)].
Qed.

(** * Servers *)

Lemma no_plus f reg a : default_registry f reg -> ~ exists x, In x reg /\ d_name x = scram_plus_name a.
Proof.
  intros H (x & I & N). pose proof (proj1 (Forall_forall _ _) (registered_builtin _ _ H) x I) as B.
  apply (registered f reg x H) in I. destruct I as (_ & P & _). apply (P a).
  apply names_distinct; [exact B|exact Logic.I|exact N].
Qed.
Lemma fresh_same f g reg reg' m i : default_registry f reg -> default_registry g reg' ->
  fresh_server reg m i -> fresh_server reg' m i.
Proof.
  intros Hf Hg H. destruct H; try (constructor; assumption); try constructor.
  rewrite H. split; intros X; exfalso; [exact (no_plus _ _ _ Hf X)|exact (no_plus _ _ _ Hg X)].
Qed.
Theorem servers_same f g reg reg' name i m :
  enables f g -> default_registry f reg -> default_registry g reg' ->
  server_start reg name = Ok (i, m) -> server_start reg' name = Ok (i, m).
Proof.
  intros E Hf Hg H. destruct (server_exact reg name) as (S1 & _). destruct (proj1 (S1 i m) H) as ((l1 & l2 & Er & N & D & _) & F).
  assert (Im : In m reg') by (apply (registered_more _ _ _ _ E Hf Hg); rewrite Er; apply in_or_app; right; left; reflexivity).
  destruct (server_exact reg' name) as (T1 & T2 & T3).
  destruct (server_start reg' name) as [[i' m']|x|] eqn:H'; [|exfalso; destruct x; exact (proj1 T2 eq_refl m Im D N)|destruct (T3 eq_refl)].
  destruct (proj1 (T1 i' m') eq_refl) as (FS & F'). pose proof FS as (k1 & k2 & Er' & N' & D' & _).
  assert (m' = m).
  { pose proof (proj1 (Forall_forall _ _) (registered_builtin _ _ Hg)) as B.
    apply names_distinct; [apply B; rewrite Er'; apply in_or_app; right; left; reflexivity|apply B; exact Im|congruence]. }
  subst m'. pose proof (fresh_same _ _ _ _ _ _ Hf Hg F) as F1.
  exact (proj2 (T1 i m) (conj FS F1)).
Qed.

(** * Features for mechanisms nobody offers *)

Lemma filter_in_split (P : mechanism -> bool) l1 m l2 : P m = true ->
  filter P (l1 ++ m :: l2) = filter P l1 ++ m :: filter P l2.
Proof. intros H. rewrite filter_app. cbn [filter]. rewrite H. reflexivity. Qed.

Lemma best_unfilter (P : mechanism -> bool) cand reg m :
  best cand (filter P reg) m -> best (fun x => P x = true /\ cand x) reg m.
Proof.
  revert m. induction reg as [|x reg IH]; intros m (l1 & l2 & E & C & H1 & H2).
  { destruct l1; discriminate E. }
  cbn [filter] in E. destruct (P x) eqn:Px.
  - destruct l1 as [|y l1]; cbn [app] in E; injection E as Ey E.
    + subst x. exists [], reg. split; [reflexivity|]. split; [split; assumption|]. split; [intros ? []|].
      intros y Iy [Py Cy]. apply H2; [|exact Cy]. rewrite <- E. apply filter_In. split; assumption.
    + subst y. destruct (IH m) as (k1 & k2 & Er & D & K1 & K2).
      { exists l1, l2. split; [exact E|]. split; [exact C|]. split; [intros y Iy; apply H1; right; exact Iy|exact H2]. }
      exists (x :: k1), k2. split; [rewrite Er; reflexivity|]. split; [exact D|]. split; [|exact K2].
      intros y [<-|Iy]; [intros [_ Cy]; apply H1; [left; reflexivity|exact Cy]|apply K1; exact Iy].
  - destruct (IH m) as (k1 & k2 & Er & D & K1 & K2).
    { exists l1, l2. split; [exact E|]. split; [exact C|]. split; assumption. }
    exists (x :: k1), k2. split; [rewrite Er; reflexivity|]. split; [exact D|]. split; [|exact K2].
    intros y [<-|Iy]; [intros [Py _]; congruence|apply K1; exact Iy].
Qed.

Lemma best_unique cand reg m m' : best cand reg m -> best cand reg m' -> m = m'.
Proof.
  intros B B'. pose proof B as (l1 & l2 & E & C & H1 & H2). pose proof B' as (k1 & k2 & E' & C' & K1 & K2).
  clear B B'. revert k1 E' K1. subst reg. induction l1 as [|x l1 IH]; intros k1 E' K1.
  - destruct k1 as [|y k1]; cbn [app] in E'; injection E' as Ey E'; [congruence|]. subst y.
    assert (I : In m' l2) by (rewrite E'; apply in_elt). specialize (H2 _ I C').
    specialize (K1 m (or_introl eq_refl) C). lia.
  - destruct k1 as [|y k1]; cbn [app] in E'; injection E' as Ey E'.
    + subst x. assert (I : In m k2) by (rewrite <- E'; apply in_elt). specialize (K2 _ I C).
      specialize (H1 m' (or_introl eq_refl) C'). lia.
    + apply (IH (fun z Iz => H1 z (or_intror Iz)) k1 E' (fun z Iz => K1 z (or_intror Iz))).
Qed.

Lemma fresh_det m mc mc' :
  fresh_client m mc -> fresh_client m mc' -> (forall a, m <> DScram a false) -> mc = mc'.
Proof. intros F F' H. destruct F; inversion F'; subst; try reflexivity. destruct (H a eq_refl). Qed.

Lemma start_det reg reg' cb p p' offered i i' m :
  client_start reg cb p offered = Ok (i, m) -> client_start reg' cb p' offered = Ok (i', m) -> i = i'.
Proof.
  intros H H'. apply start_inv in H. apply start_inv in H'.
  destruct H as (_ & _ & F & _ & S), H' as (_ & _ & F' & _ & S').
  destruct m as [a [|]| | | | | | | |]; try (apply (fresh_det _ _ _ F F'); discriminate).
  rewrite (S a eq_refl), (S' a eq_refl). reflexivity.
Qed.

Theorem unoffered_change_nothing f g cb offered :
  enables f g -> (forall m, compiled g m = true -> compiled f m = false -> ~ candidate cb offered m) ->
  client_start (default_of f) cb default_prefer offered = client_start (default_of g) cb default_prefer offered.
Proof.
  intros [E _] N.
  assert (Bi : forall h, Forall is_builtin (default_of h)).
  { intros h. rewrite default_filter. apply Forall_forall. intros m I. apply filter_In in I as [I _].
    apply (proj2 default_registry_complete) in I. exact (proj1 I). }
  assert (Inn : forall m, candidate cb offered m -> In m (default_of f) <-> In m (default_of g)).
  { intros m C. rewrite !default_filter, !filter_In.
    split; intros [I K]; (split; [exact I|]); [exact (E _ K)|].
    destruct (compiled f m) eqn:Kf; [reflexivity|]. destruct (N m K Kf C). }
  destruct (client_start (default_of f) cb default_prefer offered) as [[i m]|x|] eqn:H.
  - pose proof (default_best _ _ _ _ _ H) as B. pose proof (start_inv _ _ _ _ _ _ H) as (I & C & _).
    destruct (client_start (default_of g) cb default_prefer offered) as [[i' m']|x'|] eqn:H'.
    + pose proof (default_best _ _ _ _ _ H') as B'. rewrite default_filter in B, B'.
      apply best_unfilter in B. apply best_unfilter in B'.
      assert (m = m') as <-.
      { apply (best_unique _ _ _ _ B). destruct B' as (l1 & l2 & El & [Pm Cm] & K1 & K2). exists l1, l2.
        split; [exact El|]. split; [split; [|exact Cm]|].
        - destruct (compiled f m') eqn:Kf; [reflexivity|]. destruct (N m' Pm Kf Cm).
        - split; intros y Iy [Py Cy]; [apply K1|apply K2]; try assumption; (split; [exact (E _ Py)|exact Cy]). }
      rewrite (start_det _ _ _ _ _ _ _ _ _ H H'). reflexivity.
    + exfalso. apply (proj1 (default_none _ _ _) (ex_intro _ x' H') m); [|exact C]. apply Inn; assumption.
    + exfalso. exact (builtin_no_panic _ _ _ _ (Bi g) H').
  - pose proof (proj1 (default_none _ _ _) (ex_intro _ x H)) as No.
    destruct (proj2 (default_none (default_of g) cb offered)) as [x' H'].
    { intros m I C. apply (No m); [|exact C]. apply Inn; assumption. }
    rewrite H'. destruct x, x'. reflexivity.
  - exfalso. exact (builtin_no_panic _ _ _ _ (Bi f) H).
Qed.

(** * Link order *)

Theorem link_order f reg reg' cb offered :
  default_registry f reg -> default_registry f reg' ->
  match client_start reg cb default_prefer offered, client_start reg' cb default_prefer offered with
  | Ok (i, m), Ok (i', m') =>
      d_priority m = d_priority m' /\ (untied (candidate cb offered) reg m -> (i, m) = (i', m'))
  | Err x, Err y => x = y
  | _, _ => False
  end.
Proof.
  intros H H'.
  assert (R : enables f f) by (split; auto).
  assert (I1 := registered_more _ _ _ _ R H H'). assert (I2 := registered_more _ _ _ _ R H' H).
  destruct (client_start reg cb default_prefer offered) as [[i m]|x|] eqn:S.
  - destruct (more_still_starts _ _ _ _ _ _ I1 (registered_builtin _ _ H') S) as (i' & m' & S' & P).
    rewrite S'. destruct (more_still_starts _ _ _ _ _ _ I2 (registered_builtin _ _ H) S') as (i2 & m2 & S2 & P2).
    rewrite S in S2. injection S2 as <- <-. assert (Eq : d_priority m = d_priority m') by lia.
    split; [exact Eq|]. intros T.
    pose proof (start_inv _ _ _ _ _ _ S) as (J & C & _). pose proof (start_inv _ _ _ _ _ _ S') as (J' & C' & _).
    assert (m = m') as <-.
    { symmetry. apply T; [apply I2; exact J'|exact C'|congruence]. }
    rewrite (start_det _ _ _ _ _ _ _ _ _ S S'). reflexivity.
  - pose proof (proj1 (default_none _ _ _) (ex_intro _ x S)) as No.
    destruct (proj2 (default_none reg' cb offered)) as [x' S'].
    { intros y I. apply No. apply I2. exact I. }
    rewrite S'. destruct x, x'. reflexivity.
  - exfalso. exact (builtin_no_panic _ _ _ _ (registered_builtin _ _ H) S).
Qed.

(** * Credentials *)

Theorem credentials_choice_of f z offered :
  match client_start (credentials_of f z) false default_prefer offered with
  | Ok (i, m) =>
      compiled f m = true /\ In (d_name m) offered /\ fresh_client m i /\
      exists l1 l2, credentials_order z = l1 ++ m :: l2 /\
        forall x, In x l1 -> ~ (compiled f x = true /\ In (d_name x) offered)
  | Err _ => forall x, In x (credentials_order z) -> ~ (compiled f x = true /\ In (d_name x) offered)
  | Panic => False
  end.
Proof.
  assert (Hb : forall y, In y (credentials_order z) -> forall a, y <> DScram a true).
  { intros y Hy. apply credentials_same in Hy. apply (credentials_bare _ _ Hy). }
  destruct (client_start _ _ _ _) as [[i m]|x|] eqn:E.
  - pose proof (default_best _ _ _ _ _ E) as B. rewrite credentials_filter in B. apply best_unfilter in B.
    apply credentials_best in B. destruct B as ((Pm & Hc) & l1 & l2 & El & Hn).
    assert (Im : In m (credentials_order z)) by (rewrite El; apply in_elt).
    pose proof (start_inv _ _ _ _ _ _ E) as (_ & _ & Hf & _).
    split; [exact Pm|]. split; [apply candidate_bare; [exact (Hb _ Im)|exact Hc]|]. split; [exact Hf|].
    exists l1, l2. split; [exact El|]. intros y Hy [Py Oy]. apply (Hn y Hy). split; [exact Py|].
    apply candidate_bare; [|exact Oy]. apply Hb. rewrite El. apply in_or_app. left. exact Hy.
  - intros y Hy [Py Oy].
    apply (proj1 (default_none _ _ _) (ex_intro _ x E) y); [|apply candidate_bare; [exact (Hb _ Hy)|exact Oy]].
    rewrite credentials_filter. apply filter_In. split; [apply credentials_same; exact Hy|exact Py].
  - refine (builtin_no_panic _ _ _ _ _ E). rewrite credentials_filter. apply Forall_forall. intros y Iy.
    apply filter_In in Iy as [Iy _]. revert y Iy. apply Forall_forall. apply credentials_builtin.
Qed.

Theorem credentials_work_of f e1 e2 sa z a p offered :
  crypto_ok e2 -> same_crypto e1 e2 ->
  (forall x, z = Some x -> carried_name e2 x) -> carried_name e2 a -> carried e2 p ->
  Forall is_builtin (ap_registry sa) ->
  (forall n, In n offered -> exists m, In m (get_available (ap_registry sa)) /\ d_name m = n) ->
  (forall m, In m (credentials_order (given z)) -> compiled f m = true -> In (d_name m) offered ->
     has_user (session_env e2 sa SServer m) m z a p) ->
  (exists m, In m (credentials_order (given z)) /\ compiled f m = true /\ In (d_name m) offered) ->
  exists m mc ms, compiled f m = true /\
    client_start (ap_registry (credentials_client_of f z a p)) false default_prefer offered = Ok (Builtin mc, m) /\
    server_start (ap_registry sa) (d_name m) = Ok (Builtin ms, m) /\
    exists c s evs x,
      completes (session_env e1 (credentials_client_of f z a p) SClient m) (session_env e2 sa SServer m) m
        (new_session mc) (new_session ms) c s /\
      new_events (new_session ms) s evs /\ validations evs = [x] /\ shows m x z a p.
Proof.
  intros C SC Hz Ha Hp B Off U (m0 & I0 & P0 & O0).
  pose proof (credentials_choice_of f (given z) offered) as K.
  change (ap_registry (credentials_client_of f z a p)) with (credentials_of f (given z)).
  destruct (client_start (credentials_of f (given z)) false default_prefer offered) as [[i m]|x|] eqn:E;
    [|destruct (K _ I0 (conj P0 O0))|destruct K].
  destruct K as (Pm & Om & F & l1 & l2 & Eo & _).
  assert (Im : In m (credentials_order (given z))) by (rewrite Eo; apply in_elt).
  assert (Bd : forall y, In y (credentials_order (given z)) -> is_builtin y).
  { intros y Iy. apply credentials_same in Iy. revert y Iy. apply Forall_forall. apply credentials_builtin. }
  assert (Bb : forall y, In y (credentials_order (given z)) -> forall q, y <> DScram q true).
  { intros y Hy. apply credentials_same in Hy. apply (credentials_bare _ _ Hy). }
  assert (Nm : forall y, In y (credentials_order (given z)) -> In (d_name y) [d_name m] -> y = m).
  { intros y Iy [N|[]]. symmetry. apply names_distinct; auto. }
  destruct (credentials_work e1 e2 sa z a p [d_name m]) as (m1 & mc & ms & S & V & R); try assumption.
  - intros n [<-|[]]. exact (Off _ Om).
  - intros y Iy Oy. rewrite (Nm y Iy Oy). exact (U _ Im Pm Om).
  - exists m. split; [exact Im|left; reflexivity].
  - pose proof (start_inv _ _ _ _ _ _ S) as (Iy & Cy & Fy & _ & Sy). apply credentials_same in Iy.
    assert (m1 = m) by (apply Nm; [exact Iy|apply candidate_bare; [apply Bb; exact Iy|exact Cy]]). subst m1.
    exists m, mc, ms. split; [exact Pm|]. split; [|split; [exact V|exact R]].
    f_equal. f_equal. pose proof (start_inv _ _ _ _ _ _ E) as (_ & _ & _ & _ & Se).
    destruct m as [q [|]| | | | | | | |]; try (apply (fresh_det _ _ _ F Fy); discriminate).
    rewrite (Se q eq_refl). symmetry. exact (Sy q eq_refl).
Qed.
