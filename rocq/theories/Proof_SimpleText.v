(** Lemmas for C88. *)
From Coq Require Import Lia NArith.
From Verif Require Import Bytes BytesFacts Utf8 Types World CallbackSpec Simple Session Spec_Wire Spec_Simple
  Spec_SimpleText Proof_Utf8 Proof_Simple.

Theorem plain_reads e s m z a p script r out s' :
  s_mech s = XPlainS -> is_plain m z a p -> step e s (Some m) script = (r, out, s') ->
  out = [] /\
  ((exists a' p' c, prepared e a a' /\ prepared e p p' /\ new_events s s' [EvValidate c] /\
      offers_plain c z a' p' /\ validated r) \/
   ((~ exists a' p', prepared e a a' /\ prepared e p p') /\ new_events s s' [] /\
      exists x, r = Err (EMech (MPlain x)))).
Proof.
  intros Hm (-> & [Uz Nz] & [Ua Na] & Ea & [Up Np] & Ep) H.
  apply utf8_exact in Uz, Ua, Up.
  assert (L : 4 <= length (plain_message z a p)).
  { unfold plain_message. rewrite app_length. cbn [length]. rewrite app_length. cbn [length].
    destruct a; [congruence|]. destruct p; [congruence|]. cbn [length]. lia. }
  assert (Q : forall y, prepared_password e p y <-> prepared e p y).
  { intros y. unfold prepared_password. rewrite Up. reflexivity. }
  apply plain_server_exact in H; [|exact Hm]. destruct H as [-> [H|H]]; (split; [reflexivity|]).
  - left. destruct H as (z' & a' & p' & c & (a0 & p0 & E & _ & N1 & N2 & N3 & _ & _ & A & P) & V & O & R).
    destruct (plain_message_inj _ _ _ _ _ _ Nz Na N1 N2 E) as (<- & <- & <-).
    exists a', p', c. apply Q in P. auto.
  - right. destruct H as (N & V & R). split; [|auto]. intros (a' & p' & A & P). apply (N z a' p').
    exists a, p. apply Q in P. split; [reflexivity|]. repeat (split; [assumption|]). assumption.
Qed.

Theorem plain_only e s m script st out s' :
  s_mech s = XPlainS -> (forall y, ~ prepared e [] y) -> step e s (Some m) script = (Ok st, out, s') ->
  exists z a p, m = plain_message z a p /\ safe_text z /\ safe_text a /\ a <> [] /\ nul_free p /\ p <> [].
Proof.
  intros Hm P H. apply plain_server_exact in H; [|exact Hm]. destruct H as [_ [H|(_ & _ & x & H)]]; [|discriminate].
  destruct H as (z & a & p & c & (a0 & p0 & E & _ & N1 & N2 & N3 & U1 & U2 & A & Q) & _).
  exists z, a0, p0. split; [exact E|]. split; [split; [apply utf8_exact, U1|exact N1]|].
  split; [split; [apply utf8_exact, U2|exact N2]|].
  split; [intros ->; exact (P _ A)|]. split; [exact N3|].
  intros ->. exact (P _ Q).
Qed.

Theorem plain_sends e s input script st out s' :
  s_mech s = XPlainC -> polite e -> step e s input script = (Ok st, out, s') ->
  exists evs z a p, new_events s s' evs /\
    answers PAuthId evs = [a] /\ answers PPassword evs = [p] /\
    (answers PAuthzId evs = [z] \/ (answers PAuthzId evs = [] /\ z = [])) /\
    (utf8_text z -> utf8_text a -> utf8_text p -> is_plain out z a p).
Proof.
  intros Hm P H. apply plain_client_polite in H; auto.
  destruct H as (evs & z & a & p & T & _ & E & A & B & N1 & N2 & N3 & K1 & K2 & K3).
  exists evs, z, a, p. split; [exact T|]. split; [exact K1|]. split; [exact K2|]. split; [exact K3|].
  intros U1 U2 U3. subst out. unfold is_plain, safe_text. auto 10.
Qed.

Theorem external_reads e s m script r out s' :
  s_mech s = XExternalS -> is_external m -> step e s (Some m) script = (r, out, s') ->
  out = [] /\ exists c, new_events s s' [EvValidate c] /\ offers_only c PAuthzId m /\ validated r.
Proof.
  intros Hm [U N] H. apply utf8_exact in U. apply external_server_exact in H; [|exact Hm].
  cbn [unwrap_or_empty] in H. rewrite U in H. exact H.
Qed.
Theorem external_only e s m script st out s' :
  s_mech s = XExternalS -> step e s (Some m) script = (Ok st, out, s') -> utf8_text m.
Proof.
  intros Hm H. apply external_server_exact in H; [|exact Hm]. cbn [unwrap_or_empty] in H.
  destruct (utf8_valid m) eqn:U; [apply utf8_exact, U|]. destruct H as (_ & _ & H). discriminate.
Qed.

Lemma trace_text m : is_trace m -> utf8_text m.
Proof. intros (cps & H & _ & E). exists cps. auto. Qed.
Theorem anonymous_reads e s m script r out s' :
  s_mech s = XAnonymousS -> is_trace m -> step e s (Some m) script = (r, out, s') ->
  out = [] /\ exists c, new_events s s' [EvValidate c] /\ offers_only c PAnonymousToken m /\ validated r.
Proof.
  intros Hm T H. apply trace_text, utf8_exact in T. apply anonymous_server_exact in H; [|exact Hm].
  cbn [unwrap_or_empty] in H. rewrite T in H. exact H.
Qed.
(** However long it is. *)
Theorem anonymous_long e s m script r out s' :
  s_mech s = XAnonymousS -> utf8_text m -> step e s (Some m) script = (r, out, s') ->
  exists c, new_events s s' [EvValidate c] /\ offers_only c PAnonymousToken m /\ validated r.
Proof.
  intros Hm T H. apply utf8_exact in T. apply anonymous_server_exact in H; [|exact Hm].
  cbn [unwrap_or_empty] in H. rewrite T in H. apply H.
Qed.
Theorem anonymous_only e s m script st out s' :
  s_mech s = XAnonymousS -> step e s (Some m) script = (Ok st, out, s') -> utf8_text m.
Proof.
  intros Hm H. apply anonymous_server_exact in H; [|exact Hm]. cbn [unwrap_or_empty] in H.
  destruct (utf8_valid m) eqn:U; [apply utf8_exact, U|]. destruct H as (_ & _ & H). discriminate.
Qed.

(** A character has at most four bytes. *)
Lemma trace_length m : is_trace m -> length m <= 4 * 255.
Proof.
  intros (cps & _ & L & ->). revert L. generalize 255 as n. induction cps as [|c cps IH]; intros n L; [cbn; lia|].
  cbn [flat_map length] in *. rewrite app_length. destruct n as [|n]; [lia|].
  assert (length (utf8_char c) <= 4).
  { unfold utf8_char. destruct (c <? 128)%N; [cbn; lia|]. destruct (c <? 2048)%N; [cbn; lia|].
    destruct (c <? 65536)%N; cbn; lia. }
  specialize (IH n). lia.
Qed.
Lemma ascii_text x : forallb is_ascii x = true -> utf8_text x.
Proof. intros H. apply utf8_exact, utf8_ascii, H. Qed.
