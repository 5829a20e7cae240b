(** Proofs for C107. *)
From Verif Require Import Bytes Types World CallbackSpec Gssapi Session Spec_Gssapi Spec_GssPair Spec_Stream
  Proof_Gssapi Proof_GssPair.

(** decode reads everything or fails; it never asks for more. *)
Lemma decode_all e s input script r out s' : session_decode e s input script = (r, out, s') ->
  r <> Err EInputDataRequired /\ (forall n, r = Ok n -> n = length input) /\
  ((exists c conf, protects (s_mech s) c conf) \/ r = Err ENoSecurityLayer).
Proof.
  intros H. destruct (has_security_layer s) eqn:HL.
  - apply has_layer_protects in HL. destruct HL as (c & conf & P).
    destruct (decode_sends e s c conf input script P) as (after & _ & D). rewrite H in D. unfold sends in D.
    assert (X : (r <> Err EInputDataRequired /\ forall n, r = Ok n -> n = length input)).
    { destruct (e_gss_unwrap e c input) as [t|].
      - destruct D as [(s1 & E & _)|(_ & p & q & x & s1 & _ & E & _)]; injection E as -> -> ->;
          split; [discriminate|intros n En; injection En as ->; reflexivity|discriminate|discriminate].
      - destruct D as (s1 & E & _). injection E as -> -> ->. split; discriminate. }
    destruct X as [X1 X2]. split; [exact X1|]. split; [exact X2|]. left. exists c, conf. exact P.
  - assert (r = Err ENoSecurityLayer).
    { unfold session_decode, run, mech_decode, bind, getl in H. unfold has_security_layer in HL.
      destruct (s_mech s) as [| | | | | | | | | | | | | |x|x] eqn:E; cbn in H, HL;
        try (injection H as <- _ _; reflexivity);
        destruct x; cbn in H, HL; try (injection H as <- _ _; reflexivity);
        match goal with o : option (gctx * bool) |- _ => destruct o as [[c conf]|] end;
        cbn in H, HL; try discriminate HL; injection H as <- _ _; reflexivity. }
    subst r. split; [discriminate|]. split; [discriminate|]. right. reflexivity.
Qed.

Lemma frames_arrive e1 e2 R : delivers e1 e2 R ->
  forall ds a b, joined R a b ->
  exists fs a' b', encoded e1 a ds fs a' /\ receives e2 b [] fs (concat ds) b' /\ joined R a' b'.
Proof.
  intros Hd. induction ds as [|d ds IH]; intros a b J.
  - exists [], a, b. split; [constructor|]. split; [constructor|exact J].
  - destruct J as (c & s & conf & conf' & HR & Pa & Pb).
    destruct (Hd c s conf d HR) as (t & W & T & U & R1).
    destruct (encode_sends e1 a c conf d [] Pa) as (ma & Qa & Ha). rewrite W in Ha.
    destruct Ha as [(a1 & E1 & M1)|[K _]]; [|contradiction].
    destruct (decode_sends e2 b s conf' t [] Pb) as (mb & Qb & Hb). rewrite U in Hb.
    destruct Hb as [(b1 & E2 & M2)|[K _]]; [|contradiction].
    destruct (IH a1 b1) as (fs & a2 & b2 & F1 & F2 & F3).
    { do 4 eexists. split; [exact R1|]. rewrite M1, M2. split; eassumption. }
    exists (t :: fs), a2, b2. split; [econstructor; eassumption|]. split; [|exact F3].
    apply rc_read. cbn [concat]. eapply rc_take; [exact T|exact E2|]. rewrite skipn_all. exact F2.
Qed.

Lemma encoded_same e s ds fs s1 : encoded e s ds fs s1 -> forall fs' s2, encoded e s ds fs' s2 -> fs = fs' /\ s1 = s2.
Proof.
  induction 1 as [s|s d n t s1 ds fs s2 E H IH]; intros fs' s3 H'; inversion H'; subst.
  - split; reflexivity.
  - match goal with K : session_encode _ _ _ _ = _ |- _ => rewrite E in K; injection K as <- <- <- end.
    match goal with K : encoded _ s1 _ _ _ |- _ => destruct (IH _ _ K) as [-> ->] end. split; reflexivity.
Qed.

Lemma whole_frames e1 e2 R : delivers e1 e2 R ->
  forall ds fs a a' b, joined R a b -> encoded e1 a ds fs a' ->
  exists b', receives e2 b [] fs (concat ds) b' /\ joined R a' b'.
Proof.
  intros Hd ds fs a a' b J E. destruct (frames_arrive e1 e2 R Hd ds a b J) as (fs' & a2 & b' & E' & H & J').
  destruct (encoded_same _ _ _ _ _ E _ _ E') as [-> ->]. exists b'. auto.
Qed.

(** Every piece has to be a token of its own. *)
Lemma each_piece e s buf ps out s' : receives e s buf ps out s' ->
  Forall (fun p => p = [] \/ exists c m, e_gss_unwrap e c p = Some m) (buf :: ps).
Proof.
  induction 1 as [s|s p ps out s' H IH|s buf p ps out0 s1 out s' Hb D H IH|s buf n out0 s1 ps out s' Hb D H IH].
  - repeat constructor.
  - constructor; [left; reflexivity|exact IH].
  - destruct (proj1 (decode_all _ _ _ _ _ _ _ D) eq_refl).
  - destruct (decode_all _ _ _ _ _ _ _ D) as (_ & _ & [(c & conf & P)|K]); [|discriminate K].
    constructor; [right|inversion IH; assumption].
    destruct (decode_sends e s c conf buf [] P) as (after & _ & F). rewrite D in F. unfold sends in F.
    destruct (e_gss_unwrap e c buf) as [m|] eqn:U; [exists c, m; exact U|].
    destruct F as (s2 & K & _). discriminate K.
Qed.

(** What a receiver gets does not depend on anything else. *)
Lemma receives_same e s buf ps out s' : receives e s buf ps out s' ->
  forall out2 s2, receives e s buf ps out2 s2 -> out = out2 /\ s' = s2.
Proof.
  induction 1 as [s|s p ps out s' H IH|s buf p ps out0 s1 out s' Hb D H IH|s buf n out0 s1 ps out s' Hb D H IH];
    intros out2 s2 H2.
  - inversion H2; subst; [split; reflexivity|congruence].
  - inversion H2; subst; [auto|congruence..].
  - destruct (proj1 (decode_all _ _ _ _ _ _ _ D) eq_refl).
  - inversion H2; subst; try congruence.
    match goal with K : session_decode _ _ _ _ = _ |- _ => rewrite D in K; injection K as <- <- <- end.
    match goal with K : receives _ s1 _ _ _ _ |- _ => destruct (IH _ _ K) as [-> ->] end. split; reflexivity.
Qed.

(** A writer that accepts nothing. *)
Lemma encode_zero e s c conf input t rest : protects (s_mech s) c conf ->
  e_gss_wrap e c conf input = Some t -> t <> [] ->
  exists s', session_encode e s input (WAccept 0 :: rest) = (Err (EIo IoWriteZero), [], s').
Proof.
  intros P W T. destruct s as [m tr k v]. cbn [s_mech] in P. unfold session_encode, run. cbn [s_mech s_trace s_rng s_val].
  destruct t as [|x t]; [contradiction|].
  destruct P as [->| ->]; cbn; unfold mech_encode, bind, getl, on, gss_client_encode, gss_server_encode,
    gss_wrap_data, setl, gss_try, bind, ret; cbn; rewrite W; cbn; eexists; reflexivity.
Qed.
