(** Lemmas for C126. *)
From Verif Require Import Bytes BytesFacts Utf8 Types World CallbackSpec WorldFacts MonadFacts Simple OAuth ScramParser
  Scram Gssapi Session Frame Calm Spec_Simple Spec_OAuth Spec_Scram Spec_History Spec_Docs Spec_Empty
  Proof_Simple Proof_OAuth Proof_Scram Proof_ScramRun Proof_ScramPanic Proof_ScramMain Proof_Early Proof_Authzid Proof_Docs.
Open Scope m_scope.

(** * Servers *)

Lemma answering_in c l q : answering c l -> get_ref c q <> None -> In q l.
Proof. intros [H _]. apply H. Qed.

Lemma plain_full e s input script r out s' evs c :
  s_mech s = XPlainS -> step e s input script = (r, out, s') -> new_events s s' evs -> shown evs c ->
  ~ empty_name c /\ ~ empty_password c.
Proof.
  intros Hm H N S. destruct input as [msg|].
  - destruct (plain_server_exact _ _ _ _ _ _ _ Hm H) as [_ [(z & a & p & c1 & A & N1 & O & _)|[_ [N1 _]]]].
    + unfold new_events in N, N1. rewrite N1 in N. apply app_inv_head in N. subst evs.
      assert (c = c1) as ->.
      { destruct S as [[[= ->]|[]]|[[q [K|[]]]|[q [v [K|[]]]]]]; [reflexivity|discriminate K..]. }
      destruct O as (_ & Oa & Op & _). destruct A as (a0 & p0 & _ & _ & _ & _ & _ & _ & _ & [_ Pa] & Pp).
      unfold empty_name, empty_password. rewrite Oa, Op. split; intros [= K]; [contradiction|].
      subst p. unfold prepared_password in Pp. destruct (utf8_valid p0); [destruct Pp; contradiction|].
      destruct Pp as [<- Pp]. contradiction.
    + unfold new_events in N, N1. rewrite N1 in N. apply app_inv_head in N. subst evs.
      destruct S as [[]|[[q []]|[q [v []]]]].
  - apply run_ok in H. destruct H as [m' [w' [H [-> ->]]]]. rewrite Hm in H.
    unfold new_events in N. cbn in H. injection H as _ _ <-. cbn in N. symmetry in N.
    rewrite <- (app_nil_r (s_trace s)) in N at 2. apply app_inv_head in N. subst evs.
    destruct S as [[]|[[q []]|[q [v []]]]].
Qed.

Theorem empty_shown e s input script r out s' evs c :
  step e s input script = (r, out, s') -> new_events s s' evs -> shown evs c ->
  (empty_name c -> (exists l, s_mech s = XLoginS l) \/ (exists l, s_mech s = XXOAuth2S l) \/
                   (exists a l, s_mech s = XScramS a l)) /\
  (empty_password c -> exists l, s_mech s = XLoginS l) /\
  (empty_token c -> (exists l, s_mech s = XXOAuth2S l) \/ (exists l, s_mech s = XOAuthBearerS l)).
Proof.
  intros H N S. pose proof (only_documented _ _ _ _ _ _ _ _ H N) as D. rewrite Forall_forall in D.
  assert (P : s_mech s = XPlainS -> ~ empty_name c /\ ~ empty_password c).
  { intros Hm. exact (plain_full _ _ _ _ _ _ _ _ _ Hm H N S). }
  assert (exists l, answering c l /\ (answered_by (s_mech s) l \/ (exists p, requests (s_mech s) p l) \/
                                      (exists p, acts (s_mech s) p l))) as (l & A & W).
  { destruct S as [S|[[p S]|[p [v S]]]]; apply D in S; destruct S as [l [S A]]; exists l; eauto. }
  assert (I : forall q, get_ref c q <> None -> In q l) by (intros q; exact (answering_in _ _ _ A)).
  destruct W as [W|[[p W]|[p W]]]; inversion W; subst l;
  match goal with K : _ = s_mech s |- _ => rewrite <- K in * end;
  (split; [|split]); unfold empty_name, empty_password, empty_token in *; intros E;
  try (match type of E with get_ref _ ?q = _ => specialize (I q) end;
       rewrite E in I; specialize (I ltac:(discriminate)); cbn in I;
       repeat (destruct I as [I|I]; try discriminate I); try contradiction); eauto;
  destruct (P eq_refl); contradiction.
Qed.

(** * Clients *)

(** Does not go through. *)
Definition stuck {L A} (m : M L A) : Prop :=
  forall l w, match m l w with (Ok _, _, _) => False | _ => True end.
Lemma stuck_first {L A B} (m : M L A) (f : A -> M L B) : stuck m -> stuck (bind m f).
Proof. intros H l w. specialize (H l w). unfold bind. destruct (m l w) as [[[a|x|] l1] w1]; [destruct H|exact I..]. Qed.
Lemma stuck_then {L A B} (m : M L A) (f : A -> M L B) : (forall a, stuck (f a)) -> stuck (bind m f).
Proof. intros H l w. unfold bind. destruct (m l w) as [[[a|x|] l1] w1]; [apply H|exact I..]. Qed.
Lemma stuck_need {L G} e q v c (f : pval q -> M L G) :
  provides e q v -> (forall l w, exists x, f v l w = (Err x, l, w) /\ x <> ECbNoValue) ->
  stuck (need_with e q c f).
Proof.
  intros P H. intros l w. unfold need_with, bind.
  destruct (maybe_need_with_provides e q v c f l w P) as [cs [_ E]]. rewrite E.
  destruct (H l (add_events (EvRequest q c :: cs ++ [EvAnswer q v]) w)) as [x [K N]]. rewrite K.
  destruct x; cbn; exact I || congruence.
Qed.

Lemma stuck_plain e i : provides e PAuthId [] \/ provides e PPassword [] -> stuck (plain_client_step e i).
Proof.
  intros P. unfold plain_client_step. do 2 (apply stuck_then; intros _).
  destruct P as [P|P].
  - apply stuck_first, (stuck_need e PAuthId [] _ _ P). intros l w. eexists. split; [reflexivity|discriminate].
  - do 2 (apply stuck_then; intros _).
    apply stuck_first, (stuck_need e PPassword [] _ _ P). intros l w. eexists. split; [reflexivity|discriminate].
Qed.
Theorem plain_empty_refused e s input script r out s' :
  s_mech s = XPlainC -> provides e PAuthId [] \/ provides e PPassword [] ->
  step e s input script = (r, out, s') -> exists x, r = Err x.
Proof.
  intros Hm P H. apply run_ok in H. destruct H as [m' [w' [H [-> ->]]]]. rewrite Hm in H.
  unfold mech_step, bind at 1, getl in H. apply on_eq in H. destruct H as [l' [H _]].
  pose proof (stuck_plain e input P tt (mk_world [] script (s_trace s) (s_rng s) (s_val s))) as S.
  rewrite H in S. destruct r as [st|x|]; [destruct S|eauto|].
  destruct (step_calm e input XPlainC (mk_world [] script (s_trace s) (s_rng s) (s_val s)) eq_refl).
  unfold mech_step, bind, getl, on. rewrite H. reflexivity.
Qed.

(** Does not go through and writes nothing. *)
Definition halts {L A} (m : M L A) : Prop :=
  forall l w, match m l w with (Ok _, _, _) => False | (_, _, w1) => Proof_Early.quiet w w1 end.
Lemma halts_first {L A B} (m : M L A) (f : A -> M L B) : halts m -> halts (bind m f).
Proof. intros H l w. specialize (H l w). unfold bind. destruct (m l w) as [[[a|x|] l1] w1]; [destruct H|exact H..]. Qed.
Lemma halts_then {L A B} (m : M L A) (f : A -> M L B) :
  keeps Proof_Early.quiet m -> (forall a, halts (f a)) -> halts (bind m f).
Proof.
  intros K H l w. specialize (K l w). unfold bind. destruct (m l w) as [[[a|x|] l1] w1]; [|exact K..].
  specialize (H a l1 w1). destruct (f a l1 w1) as [[[b|x|] l2] w2]; [destruct H|..];
    exact (fr_trans _ Proof_Early.quiet_frame _ _ _ K H).
Qed.
Lemma halts_scram e plus : provides e PAuthId [] -> halts (send_client_first e plus).
Proof.
  intros P. rewrite send_client_first_eq.
  apply halts_then; [apply flag_hushed|intros _].
  apply halts_then; [unfold push_gs2; hushed|intros _].
  apply halts_then; [unfold authzid_consumer, push_gs2, esc; hushed|intros _].
  unfold scf_user. apply halts_then; [unfold push_gs2; hushed|intros _]. apply halts_first.
  intros l w. unfold need_with, bind.
  match goal with |- context [maybe_need_with e PAuthId ?c ?f l w] =>
    destruct (maybe_need_with_provides e PAuthId [] c f l w P) as [cs [_ E]] end.
  rewrite E. cbn. split; [reflexivity|apply script_left_refl].
Qed.

Theorem scram_empty_name e s a plus input script r out s' :
  s_mech s = XScramC a (Some (ScInitial plus)) -> provides e PAuthId [] ->
  step e s input script = (r, out, s') -> out = [] /\ exists x, r = Err x.
Proof.
  intros Em P H. apply run_ok in H. destruct H as [m' [w' [H [-> ->]]]]. rewrite Em in H.
  unfold mech_step, bind at 1, getl in H. apply on_eq in H. destruct H as [l' [H _]].
  unfold scram_client_step, bind at 1, getl, bind at 1, setl, bind at 1, locally in H.
  set (w := mk_world [] script (s_trace s) (s_rng s) (s_val s)) in *.
  pose proof (client_first_calm e plus ([], None) w) as C.
  pose proof (halts_scram e plus P ([], None) w) as S.
  destruct (send_client_first e plus ([], None) w) as [[[u|x|] l1] w1]; [destruct S| |destruct C; reflexivity].
  injection H as <- _ <-. destruct S as [O _]. rewrite O. eauto.
Qed.

Theorem xoauth2_sends e s input user token :
  s_mech s = XXOAuth2C OcInitial -> provides e PAuthId user -> provides e POAuthBearerToken token ->
  exists s', step e s input [] = (Ok Running, xoauth2_message user token, s').
Proof.
  intros Hm Ha Ht.
  assert (S : sends (xoauth2_client_step e input) OcInitial Running OcWaiting
    ([] ++ (concat [lit "user="; user; xo_auth] ++ []) ++ (concat [token; soh2] ++ []) ++ [])).
  { unfold xoauth2_client_step.
    apply (sends_bind getl _ OcInitial OcInitial OcInitial []).
    { intros w E. eexists. split; [reflexivity|]. split; [symmetry; apply app_nil_r|exact E]. }
    apply (sends_bind _ _ _ tt OcInitial).
    { apply (sends_need e PAuthId user); [exact Ha|].
      eapply sends_bind; [apply sends_vectored|].
      intros w E. eexists. split; [reflexivity|]. split; [symmetry; apply app_nil_r|exact E]. }
    apply (sends_bind _ _ _ tt OcInitial).
    { apply (sends_need e POAuthBearerToken token); [exact Ht|].
      eapply sends_bind; [apply sends_vectored|].
      intros w E. eexists. split; [reflexivity|]. split; [symmetry; apply app_nil_r|exact E]. }
    intros w E. eexists. split; [reflexivity|]. split; [symmetry; apply app_nil_r|exact E]. }
  unfold step, run, mech_step. rewrite Hm. unfold bind, getl, on.
  destruct (S (mk_world [] [] (s_trace s) (s_rng s) (s_val s)) eq_refl) as (w1 & E & O & _).
  rewrite E. rewrite O. eexists. repeat f_equal.
  unfold xoauth2_message. cbn [concat app w_out]. rewrite !app_nil_r, <- !app_assoc. reflexivity.
Qed.

(** * SCRAM servers *)

Lemma asked_in p evs : In p (asked evs) ->
  (exists c, In (EvRequest p c) evs) \/ (exists v c, In (EvAction p v c) evs).
Proof.
  induction evs as [|ev evs IH]; [intros []|]. intros H.
  assert (K : In p (asked evs) -> (exists c, In (EvRequest p c) (ev :: evs)) \/
                                  (exists v c, In (EvAction p v c) (ev :: evs))).
  { intros I. destruct (IH I) as [[c J]|[v [c J]]]; [left|right]; repeat eexists; right; exact J. }
  destruct ev as [q c|q v|q|q v c|q|c|n]; cbn in H; try (exact (K H));
    destruct H as [->|H]; try (exact (K H)); [left|right]; repeat eexists; left; reflexivity.
Qed.

Theorem scram_empty_shown e s a plus m f two z cn t script st out s' :
  s_mech s = XScramS a (Some (SsClientFirst plus)) -> client_first_fields m f two z [] cn t ->
  step e s (Some m) script = (Ok st, out, s') ->
  exists evs c, new_events s s' evs /\ In (EvRequest PScramStoredPassword c) evs /\ empty_name c.
Proof.
  intros Em Hf H. destruct (scram_server_identity _ _ _ _ _ _ _ _ _ _ _ _ _ _ _ Em Hf H) as (evs & N & C).
  destruct (follows_plans _ _ _ _ _ _ _ _ H N) as [_ P]. specialize (P st eq_refl). rewrite Em in P.
  pose proof (only_documented _ _ _ _ _ _ _ _ H N) as D. rewrite Forall_forall in D.
  assert (I : In PScramStoredPassword (asked evs)).
  { cbn [plans In] in P. destruct P as [<-|[<-|[]]]; cbn; tauto. }
  apply asked_in in I. destruct I as [[c I]|[v [c I]]].
  - exists evs, c. split; [exact N|]. split; [exact I|]. apply (C c). left. eexists. exact I.
  - apply D in I. destruct I as [l [I _]]. rewrite Em in I. inversion I.
Qed.
