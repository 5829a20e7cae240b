(** Names, ranking and initiative. *)
From Coq Require Import Lia.
From Verif Require Import Bytes BytesFacts Utf8 Types World CallbackSpec WorldFacts Mechname Simple OAuth
  Scram Gssapi Session Registry Spec_Simple Spec_Registry Spec_Basic Spec_Order MonadFacts Proof_Basic
  Proof_Registry.

Theorem names_iana m : d_name m = iana_name m.
Proof. destruct m as [[] []| | | | | | | |]; reflexivity. Qed.

Theorem names_legal m :
  is_builtin m -> mn_parse (d_name m) = Ok (d_name m) /\ length (d_name m) <= 20.
Proof.
  destruct m as [[] []| | | | | | | |]; intros H; try contradiction;
    (split; [vm_compute; reflexivity|apply Nat.leb_le; vm_compute; reflexivity]).
Qed.

Theorem names_distinct m1 m2 :
  is_builtin m1 -> is_builtin m2 -> d_name m1 = d_name m2 -> m1 = m2.
Proof.
  destruct m1 as [[] []| | | | | | | |]; intros H1; try contradiction;
    destruct m2 as [[] []| | | | | | | |]; intros H2 E; try contradiction;
    try reflexivity; discriminate E.
Qed.

(** ** Ranking *)

Lemma best_priority cand reg m x : best cand reg m -> In x reg -> cand x -> d_priority x <= d_priority m.
Proof.
  intros (l1 & l2 & -> & _ & H1 & H2) Hx Hc. apply in_app_or in Hx.
  destruct Hx as [Hx|[<-|Hx]]; [auto|lia|]. specialize (H2 x Hx Hc). lia.
Qed.

Theorem documented_order reg cb offered i m x rm rx :
  client_start reg cb default_prefer offered = Ok (i, m) ->
  In x reg -> candidate cb offered x -> x <> DGssapi ->
  documented_rank m rm -> documented_rank x rx -> rm <= rx.
Proof.
  intros H Hx Hc Hg Rm Rx.
  pose proof (best_priority _ _ _ _ (default_best _ _ _ _ _ H) Hx Hc) as P.
  destruct Rx; try (exfalso; apply Hg; reflexivity); destruct Rm; auto with arith;
    exfalso; repeat match goal with b : bool |- _ => destruct b end; cbn [d_priority] in P; lia.
Qed.

Theorem gssapi_not_first :
  ~ forall reg cb offered i m x rm rx,
      client_start reg cb default_prefer offered = Ok (i, m) ->
      In x reg -> candidate cb offered x ->
      documented_rank m rm -> documented_rank x rx -> rm <= rx.
Proof.
  intros H.
  assert (E : 4 <= 1); [|lia].
  refine (H [DGssapi; DPlain] false [lit "GSSAPI"; lit "PLAIN"] (Builtin XPlainC) DPlain DGssapi 4 1
            _ _ _ dr_plain dr_gssapi).
  - vm_compute. reflexivity.
  - left; reflexivity.
  - exists (lit "GSSAPI"). split; [left|]; reflexivity.
Qed.

(** Passwords are not sent in the clear if SCRAM is possible. *)
Theorem scram_before_cleartext reg cb offered i m a plus :
  client_start reg cb default_prefer offered = Ok (i, m) ->
  In (DScram a plus) reg -> candidate cb offered (DScram a plus) ->
  m <> DPlain /\ m <> DLogin.
Proof.
  intros H Hx Hc.
  pose proof (best_priority _ _ _ _ (default_best _ _ _ _ _ H) Hx Hc) as P.
  split; intros ->; destruct a, plus; cbn [d_priority] in P; lia.
Qed.

(** Channel binding is used if it can be. *)
Theorem plus_before_bare reg cb offered i m a :
  client_start reg cb default_prefer offered = Ok (i, m) ->
  In (DScram a true) reg -> candidate cb offered (DScram a true) -> m <> DScram a false.
Proof.
  intros H Hx Hc ->.
  pose proof (best_priority _ _ _ _ (default_best _ _ _ _ _ H) Hx Hc) as P.
  destruct a; cbn [d_priority] in P; lia.
Qed.

(** ** with_credentials *)

Definition cred_name (o : list bytes) (m : mechanism) : bool := mem (d_name m) o.

Lemma candidate_bare offered m : (forall a, m <> DScram a true) ->
  candidate false offered m <-> In (d_name m) offered.
Proof.
  intros Hm. unfold candidate. split.
  - intros (n & Hn & Hc). destruct m as [a []| | | | | | | |]; cbn in Hc; subst; try assumption.
    + exfalso; apply (Hm a); reflexivity.
    + destruct Hc as [->|[? _]]; [assumption|discriminate].
  - intros H. exists (d_name m). split; [assumption|].
    destruct m as [a []| | | | | | | |]; cbn; auto. exfalso; apply (Hm a); reflexivity.
Qed.

Lemma credentials_bare z m : In m (credentials_registry z) -> forall a, m <> DScram a true.
Proof.
  intros H a ->. unfold credentials_registry in H.
  destruct z; cbn in H; repeat (destruct H as [H|H]; [discriminate|]); contradiction.
Qed.

Lemma credentials_same z m : In m (credentials_registry z) <-> In m (credentials_order z).
Proof. destruct z; unfold credentials_registry, credentials_order; cbn; intuition. Qed.

(** In which order the priorities and positions arrange the registry. *)
Lemma credentials_best z cand m : best cand (credentials_registry z) m ->
  cand m /\ exists l1 l2, credentials_order z = l1 ++ m :: l2 /\ forall x, In x l1 -> ~ cand x.
Proof.
  intros B. pose proof (fun x => best_priority _ _ _ x B) as P.
  destruct B as (l1 & l2 & E & Hc & H1 & H2). split; [exact Hc|].
  assert (Hm : In m (credentials_registry z)) by (rewrite E; apply in_elt).
  assert (Hp : forall x, In x (credentials_order z) -> d_priority m < d_priority x -> ~ cand x).
  { intros x Hx Hl Hcx. apply credentials_same in Hx. specialize (P x Hx Hcx). lia. }
  (* of the two with the same priority, the later one in the registry *)
  assert (Ht : m = DScram SHA512 false -> ~ cand (DScram SHA256 false)).
  { intros ->. unfold credentials_registry in E. cbn [app] in E.
    destruct l1 as [|y l1].
    - injection E as E. intros Hx. assert (In (DScram SHA256 false) l2) as Hi by (rewrite <- E; left; reflexivity).
      specialize (H2 _ Hi Hx). cbn [d_priority] in H2. lia.
    - exfalso. injection E as _ E.
      assert (In (DScram SHA512 false) (l1 ++ DScram SHA512 false :: l2)) as Hi by apply in_elt.
      rewrite <- E in Hi. destruct z; cbn in Hi;
        repeat (destruct Hi as [Hi|Hi]; [discriminate|]); contradiction. }
  unfold credentials_registry in Hm. unfold credentials_order in *.
  assert (Hm' : m = DScram SHA512 false \/ m = DScram SHA256 false \/ m = DScram SHA1 false \/
                m = DPlain \/ (z = false /\ m = DLogin)).
  { destruct z; cbn in Hm; intuition. }
  destruct Hm' as [->|[->|[->|[->|[-> ->]]]]].
  - exists [DScram SHA256 false]. eexists. split; [reflexivity|].
    intros x [<-|[]]. apply Ht. reflexivity.
  - exists []. eexists. split; [reflexivity|]. intros x [].
  - exists [DScram SHA256 false; DScram SHA512 false]. eexists. split; [reflexivity|].
    intros x Hx. apply Hp; cbn in Hx |- *.
    + intuition.
    + destruct Hx as [<-|[<-|[]]]; cbn [d_priority]; lia.
  - exists [DScram SHA256 false; DScram SHA512 false; DScram SHA1 false]. eexists. split; [reflexivity|].
    intros x Hx. apply Hp; cbn in Hx |- *.
    + intuition.
    + destruct Hx as [<-|[<-|[<-|[]]]]; cbn [d_priority]; lia.
  - exists [DScram SHA256 false; DScram SHA512 false; DScram SHA1 false; DPlain]. eexists.
    split; [reflexivity|].
    intros x Hx. apply Hp; cbn in Hx |- *.
    + intuition.
    + destruct Hx as [<-|[<-|[<-|[<-|[]]]]]; cbn [d_priority]; lia.
Qed.

Lemma credentials_builtin z : Forall is_builtin (credentials_registry z).
Proof. destruct z; repeat constructor. Qed.

Theorem credentials_choice z offered :
  match client_start (credentials_registry z) false default_prefer offered with
  | Ok (i, m) =>
      In (d_name m) offered /\ fresh_client m i /\
      exists l1 l2, credentials_order z = l1 ++ m :: l2 /\
        forall x, In x l1 -> ~ In (d_name x) offered
  | Err _ => forall x, In x (credentials_order z) -> ~ In (d_name x) offered
  | Panic => False
  end.
Proof.
  destruct (client_start _ _ _ _) as [[i m]|x|] eqn:E.
  - pose proof (default_best _ _ _ _ _ E) as B. apply credentials_best in B.
    destruct B as (Hc & l1 & l2 & El & Hn).
    pose proof (start_inv _ _ _ _ _ _ E) as (Hi & _ & Hf & _).
    assert (Hb : forall y, In y (credentials_order z) -> forall a, y <> DScram a true).
    { intros y Hy. apply credentials_same in Hy. apply (credentials_bare _ _ Hy). }
    split; [apply candidate_bare; [apply (credentials_bare _ _ Hi)|assumption]|].
    split; [assumption|]. exists l1, l2. split; [assumption|].
    intros y Hy Hy'. apply (Hn y Hy). apply candidate_bare; [|assumption].
    apply Hb. rewrite El. apply in_or_app. left; assumption.
  - intros y Hy Hin. apply credentials_same in Hy.
    assert (Hex : exists x, client_start (credentials_registry z) false default_prefer offered = Err x)
      by (eexists; exact E).
    rewrite (default_none (credentials_registry z) false offered) in Hex.
    apply (Hex y Hy). apply candidate_bare; [apply (credentials_bare _ _ Hy)|assumption].
  - exact (builtin_no_panic _ _ _ _ (credentials_builtin z) E).
Qed.

(** ** The default registry *)

Theorem default_registry_complete : NoDup builtin_registry /\
  forall m, In m builtin_registry <->
    is_builtin m /\ m <> DGssapi /\ forall a, m <> DScram a true.
Proof.
  split.
  - unfold builtin_registry. repeat constructor; cbn; intuition discriminate.
  - intros m. split.
    + unfold builtin_registry. cbn. intros H.
      repeat (destruct H as [<-|H]; [repeat split; [discriminate|intros a; discriminate]|]). contradiction.
    + intros (Hb & Hg & Hp).
      destruct m as [[] []| | | | | | | |]; try contradiction;
        try (exfalso; eapply Hp; reflexivity); try (exfalso; apply Hg; reflexivity);
        unfold builtin_registry; cbn; tauto.
Qed.

(** ** Who begins *)

Theorem first_initiator sd m : are_we_first sd m = true <-> sd = initiator m.
Proof.
  unfold are_we_first, initiator. destruct m as [[] []| | | | | | | |c]; cbn [d_first];
    destruct sd; try destruct (cu_first c); split; congruence.
Qed.

Theorem waits_for_input e reg sd m s script r out s' :
  begun reg sd m s -> sd <> initiator m -> ~ careless sd m ->
  step e s None script = (r, out, s') ->
  (r = Err EInputDataRequired \/ (m = DGssapi /\ r = Err (EMech MGss))) /\
  out = [] /\ new_events s s' [] /\ s_rng s' = s_rng s /\ s_val s' = s_val s.
Proof.
  intros Hb Hi Hc H. destruct s as [mm tr rg v]. unfold new_events. cbn [s_trace s_rng s_val].
  unfold begun in Hb. cbn [s_mech] in Hb.
  assert (Hs : forall y, y = (r, out, s') -> (exists m' , y = (Err EInputDataRequired, [], mk_session m' tr rg v) \/
     (m = DGssapi /\ y = (Err (EMech MGss), [], mk_session m' tr rg v))) ->
     (r = Err EInputDataRequired \/ m = DGssapi /\ r = Err (EMech MGss)) /\ out = [] /\
     s_trace s' = tr ++ [] /\ s_rng s' = rg /\ s_val s' = v).
  { intros y Hy (m' & [E|[E1 E]]); rewrite E in Hy; injection Hy as <- <- <-;
      rewrite app_nil_r; cbn; auto 8. }
  apply (Hs _ H). clear Hs H.
  destruct sd.
  - destruct m as [a []| | | | | | | |c]; cbn [initiator] in Hi; try congruence.
    + exfalso; apply Hc; exact I.
    + inversion Hb.
  - inversion Hb; subst; cbn [initiator] in Hi; try congruence;
      try (exfalso; apply Hc; exact I); try (eexists; left; reflexivity).
    unfold step, run, mech_step, gss_server_step. cbn [s_mech s_trace s_rng s_val].
    unfold bind, getl, setl, on. cbn.
    destruct (e_gss_cred e); eexists; [left|right; split]; reflexivity.
Qed.

(** Nobody who begins looks at the input of the first step, GSSAPI excepted. *)
Theorem begins_without_input e reg sd m s i1 i2 script :
  begun reg sd m s -> sd = initiator m -> m <> DGssapi ->
  step e s i1 script = step e s i2 script.
Proof.
  intros Hb Hi Hg. destruct s as [mm tr rg v]. unfold begun in Hb. cbn [s_mech] in Hb.
  destruct sd; inversion Hb; subst; cbn [initiator] in Hi; try congruence; reflexivity.
Qed.
