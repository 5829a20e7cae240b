(** Histories: termination and number of validations. *)
From Coq Require Import Lia.
From Verif Require Import Bytes Base64 Types World CallbackSpec WorldFacts MonadFacts Simple OAuth ScramParser Scram
  Gssapi Session Registry Frame Triple Spec_Simple Spec_Registry Spec_History Proof_Simple
  Proof_Registry.
Open Scope m_scope.

(** Bound on the number of further Running results. *)
Definition rank (m : mech) : nat :=
  match m with
  | XLoginC LcAuthid => 1
  | XLoginS LsNew => 2 | XLoginS LsUser => 1
  | XXOAuth2C OcInitial | XOAuthBearerC OcInitial => 1
  | XXOAuth2S OsInitial | XOAuthBearerS OsInitial => 1
  | XScramC _ (Some (ScInitial _)) => 2 | XScramC _ (Some (ScClientFirst _)) => 1
  | XScramS _ (Some (SsClientFirst _)) => 1
  | _ => 0
  end.

(** Number of validations that are still to come. *)
Definition owed (m : mech) : nat :=
  match m with
  | XPlainS | XExternalS | XAnonymousS => 1
  | XLoginS LsDone => 0 | XLoginS _ => 1
  | XXOAuth2S OsInitial | XOAuthBearerS OsInitial => 1
  | XScramS _ (Some (SsClientFirst _)) | XScramS _ (Some (SsClientFinal _)) => 1
  | _ => 0
  end.

Definition fine_ok (m0 : mech) (n0 : nat) (a : state) (m : mech) (n : nat) : Prop :=
  match a with
  | Running => rank m < rank m0 /\ n + owed m <= n0 + owed m0 /\
               (~ is_scram m0 -> n + owed m = n0 + owed m0)
  | Finished _ => rank m <= rank m0 /\ n <= n0 + owed m0 /\ (~ is_scram m0 -> n = n0 + owed m0)
  end.
Definition fine_x (m0 : mech) (n0 : nat) (m : mech) (n : nat) : Prop :=
  rank m <= rank m0 /\ n <= n0 + owed m0.

(** Forward rules for a known state. *)
Definition at_ {L} (l : L) (n : nat) : L -> nat -> Prop := fun l' n' => l' = l /\ n' = n.

Section Forward.
Context {L A : Type} (Q : A -> L -> nat -> Prop) (X : L -> nat -> Prop).
Lemma fwd_still {B} l n (m : M L B) (f : B -> M L A) :
  still m -> X l n -> (forall b, triple (at_ l n) Q X (f b)) -> triple (at_ l n) Q X (bind m f).
Proof.
  intros Hm HX Hf. eapply t_bind; [apply t_still; [exact Hm|intros ? ? [-> ->]; exact HX]|exact Hf].
Qed.
Lemma fwd_getl l n (f : L -> M L A) :
  triple (at_ l n) Q X (f l) -> triple (at_ l n) Q X (bind getl f).
Proof. intros H l' w [-> E]. exact (H l w (conj eq_refl E)). Qed.
Lemma fwd_setl l n x (f : unit -> M L A) :
  triple (at_ x n) Q X (f tt) -> triple (at_ l n) Q X (bind (setl x) f).
Proof. intros H l' w [-> E]. exact (H x w (conj eq_refl E)). Qed.
Lemma fwd_validate e c l n (f : unit -> M L A) :
  X l (S n) -> triple (at_ l (S n)) Q X (f tt) -> triple (at_ l n) Q X (bind (validate e c) f).
Proof.
  intros HX Hf. eapply t_bind with (R := fun _ => at_ l (S n)).
  - eapply t_conseq; [apply t_validate with (Q := fun _ => at_ l (S n));
      intros ? ? [-> ->]; exact HX|].
    intros ? ? [-> ->]. split; reflexivity.
  - intros []. exact Hf.
Qed.
Lemma fwd_ret l n a : Q a l n -> triple (at_ l n) Q X (ret a).
Proof. intros H l' w [-> <-]. exact H. Qed.
Lemma fwd_fail l n x : X l n -> triple (at_ l n) Q X (fail x).
Proof. intros H l' w [-> <-]. exact H. Qed.
Lemma fwd_panic l n : X l n -> triple (at_ l n) Q X panic.
Proof. intros H l' w [-> <-]. exact H. Qed.
End Forward.

Ltac fine := cbv beta; unfold fine_ok, fine_x; cbn [rank owed is_scram]; repeat split; intros; try lia;
  try match goal with H : ~ True |- _ => exfalso; apply H; exact I end.
Ltac fwd :=
  lazymatch goal with
  | |- triple _ _ _ (ret _) => apply fwd_ret; fine
  | |- triple _ _ _ (fail _) => apply fwd_fail; fine
  | |- triple _ _ _ panic => apply fwd_panic; fine
  | |- triple _ _ _ gss_err => apply fwd_fail; fine
  | |- triple _ _ _ (bind getl _) => apply fwd_getl
  | |- triple _ _ _ (bind (setl _) _) => apply fwd_setl
  | |- triple _ _ _ (bind (validate _ _) _) => apply fwd_validate; [fine|]
  | |- triple _ _ _ (match ?x with _ => _ end) => destruct x
  | |- triple _ _ _ (let (_, _) := ?x in _) => destruct x
  | |- triple _ _ _ (bind _ _) =>
      apply fwd_still; [solve [repeat still_step]|fine|intros ?]
  end.

(** The step of the implementation behind a session. *)
Definition fine_step {L} (wrap : L -> mech) (l0 : L) (m : M L state) : Prop :=
  forall n0, triple (at_ l0 n0) (fun a l n => fine_ok (wrap l0) n0 a (wrap l) n)
                    (fun l n => fine_x (wrap l0) n0 (wrap l) n) m.

Lemma fine_plain_c e i : fine_step (fun _ => XPlainC) tt (plain_client_step e i).
Proof. intros n0. unfold plain_client_step. repeat fwd. Qed.
Lemma fine_plain_s e i : fine_step (fun _ => XPlainS) tt (plain_server_step e i).
Proof. intros n0. unfold plain_server_step. repeat fwd. Qed.
Lemma fine_login_c e i l : fine_step XLoginC l (login_client_step e i).
Proof. intros n0. unfold login_client_step. fwd. destruct l; repeat fwd. Qed.
Lemma fine_login_s e i l : fine_step XLoginS l (login_server_step e i).
Proof. intros n0. unfold login_server_step. fwd. destruct l; repeat fwd. Qed.
Lemma fine_external_c e i : fine_step (fun _ => XExternalC) tt (external_client_step e i).
Proof. intros n0. unfold external_client_step. repeat fwd. Qed.
Lemma fine_external_s e i : fine_step (fun _ => XExternalS) tt (external_server_step e i).
Proof. intros n0. unfold external_server_step. repeat fwd. Qed.
Lemma fine_anonymous_c e i : fine_step (fun _ => XAnonymousC) tt (anonymous_client_step e i).
Proof. intros n0. unfold anonymous_client_step. repeat fwd. Qed.
Lemma fine_anonymous_s e i : fine_step (fun _ => XAnonymousS) tt (anonymous_server_step e i).
Proof. intros n0. unfold anonymous_server_step. repeat fwd. Qed.
Lemma fine_xoauth2_c e i l : fine_step XXOAuth2C l (xoauth2_client_step e i).
Proof. intros n0. unfold xoauth2_client_step. fwd. destruct l; repeat fwd. Qed.
Lemma fine_oauthbearer_c e i l : fine_step XOAuthBearerC l (oauthbearer_client_step e i).
Proof. intros n0. unfold oauthbearer_client_step. fwd. destruct l; repeat fwd. Qed.

(** The verdict of the application: an error was sent and the session waits for the client's
    answer, or there was none. *)
Definition verdict_post (n0 : nat) (a : state) (l : oauth_sst) (n : nat) : Prop :=
  n = n0 /\ ((a = Running /\ l = OsErrored) \/ (a = Finished false /\ l = OsInitial)).
Lemma verdict_rest {V} wrap e q (Q : V = pval q) c n0 (body : pval q -> M oauth_sst state) :
  (wrap = XXOAuth2S \/ wrap = XOAuthBearerS) ->
  (forall v, triple (at_ OsInitial n0) (verdict_post n0)
               (fun l n => fine_x (wrap OsInitial) n0 (wrap l) n) (body v)) ->
  triple (at_ OsInitial n0) (fun a l n => fine_ok (wrap OsInitial) n0 a (wrap l) n)
    (fun l n => fine_x (wrap OsInitial) n0 (wrap l) n)
    (state <- need_with e q c body ;; validate e c ;;; ret state).
Proof.
  intros Hw Hb.
  assert (Hx : forall l n, n <= S n0 -> fine_x (wrap OsInitial) n0 (wrap l) n).
  { intros l n H. destruct Hw as [->| ->]; destruct l; fine. }
  eapply t_bind with (R := verdict_post n0).
  - apply t_need_with; [exact Hb|intros ? ? [-> ->]; apply Hx; lia|].
    intros ? l n [-> _]. apply Hx; lia.
  - intros a. intros l w [En Ha].
    assert (T : triple (at_ l n0) (fun a l n => fine_ok (wrap OsInitial) n0 a (wrap l) n)
      (fun l n => fine_x (wrap OsInitial) n0 (wrap l) n) (validate e c ;;; ret a)).
    { apply fwd_validate; [apply Hx; lia|]. apply fwd_ret.
      destruct Hw as [->| ->]; destruct Ha as [[-> ->]|[-> ->]]; fine. }
    apply T. split; [reflexivity|exact En].
Qed.
Lemma fine_xoauth2_s e i l : fine_step XXOAuth2S l (xoauth2_server_step e i).
Proof.
  intros n0. unfold xoauth2_server_step. fwd. destruct l; [|repeat fwd].
  destruct i as [i|]; [|repeat fwd].
  apply fwd_still; [apply still_of_res|fine|]. intros [a t].
  apply (verdict_rest XXOAuth2S e PXOAuth2Validate eq_refl); [left; reflexivity|].
  intros [x|]; [|apply fwd_ret; split; auto].
  apply fwd_still; [apply still_write_all|fine|]. intros _. apply fwd_setl. apply fwd_ret.
  split; auto.
Qed.
Lemma fine_oauthbearer_s e i l : fine_step XOAuthBearerS l (oauthbearer_server_step e i).
Proof.
  intros n0. unfold oauthbearer_server_step. fwd. destruct l; [|repeat fwd].
  destruct i as [i|]; [|repeat fwd].
  apply fwd_still; [apply still_of_res|fine|]. intros m.
  apply (verdict_rest XOAuthBearerS e POAuthBearerValidate eq_refl); [right; reflexivity|].
  intros [x|]; [|apply fwd_ret; split; auto].
  apply fwd_still; [apply still_write_json|fine|]. intros _. apply fwd_setl. apply fwd_ret.
  split; auto.
Qed.

Lemma still_client_keys {L} e a salt n : still (L := L) (client_keys e a salt n).
Proof. unfold client_keys. repeat still_step. Qed.
Lemma still_server_first {L} e a s i : still (L := L) (handle_server_first e a s i).
Proof.
  unfold handle_server_first. repeat first [apply still_client_keys|still_step].
Qed.
Lemma still_server_final {L} e s i : still (L := L) (handle_server_final e s i).
Proof. unfold handle_server_final. repeat still_step. Qed.
Lemma still_client_first {L} e plus :
  still (L := L) (locally ([], None) (send_client_first e plus)).
Proof. apply still_locally. vsame_go. Qed.
Lemma still_handle_client_first {L} e a plus i :
  still (L := L) (locally [] (handle_client_first e a plus i)).
Proof. apply still_locally. vsame_go. Qed.

Lemma fine_scram_c e a i l : fine_step (XScramC a) l (scram_client_step e a i).
Proof.
  intros n0. unfold scram_client_step. fwd. fwd. destruct l as [[plus|s|s]|].
  - apply fwd_still; [apply still_client_first|fine|]. intros [s l]. repeat fwd.
  - destruct i as [i|]; [|repeat fwd].
    apply fwd_still; [apply still_server_first|fine|]. intros s'. repeat fwd.
  - destruct i as [i|]; [|repeat fwd].
    apply fwd_still; [apply still_server_final|fine|]. intros s'. repeat fwd.
  - repeat fwd.
Qed.

Lemma client_final_count {L} e a d i (l : L) n0 :
  triple (at_ l n0) (fun _ l' n => l' = l /\ n <= S n0) (fun l' n => l' = l /\ n <= S n0)
    (handle_client_final e a d i).
Proof.
  unfold handle_client_final, send_final.
  assert (T : forall (m : M L unit), still m ->
    triple (at_ l n0) (fun _ l' n => l' = l /\ n <= S n0) (fun l' n => l' = l /\ n <= S n0) m).
  { intros m Hm l1 w [-> E]. specialize (Hm l w).
    destruct (m l w) as [[[u|x|] l2] w2]; destruct Hm as [-> Hn]; split; auto; lia. }
  apply fwd_still; [repeat still_step|auto|]. intros cl.
  destruct d as [d|]; [|apply T; repeat still_step].
  destruct (decode (cl_cb cl)); [|apply T; repeat still_step].
  destruct (negb _); [apply T; repeat still_step|].
  destruct (strip_prefix _ _); [|apply T; repeat still_step].
  match goal with |- triple _ _ _ (if ?c then _ else _) => destruct c end;
    [|apply T; repeat still_step].
  destruct (decode_slice _ _); [|apply T; repeat still_step]. cbv zeta.
  apply fwd_still; [repeat still_step|auto|]. intros ck.
  destruct (bytes_eqb _ _); [|apply T; repeat still_step].
  apply fwd_still; [repeat still_step|auto|]. intros _.
  eapply t_conseq; [apply t_validate with (Q := fun _ l' n => l' = l /\ n <= S n0); auto|].
  intros ? ? [-> ->]. split; auto.
Qed.
Lemma fine_scram_s e a i l : fine_step (XScramS a) l (scram_server_step e a i).
Proof.
  intros n0. unfold scram_server_step. fwd. fwd. destruct l as [[plus|s|]|].
  - destruct i as [i|]; [|repeat fwd].
    apply fwd_still; [apply still_handle_client_first|fine|]. intros [d l]. repeat fwd.
  - destruct i as [i|]; [|repeat fwd].
    eapply t_bind with (R := fun _ l' n => l' = None /\ n <= S n0).
    + intros l w [-> En].
      pose proof (client_final_count e a s i (@None scram_sst) n0 None w (conj eq_refl En)) as H.
      destruct (handle_client_final e a s i None w) as [[[u|x|] l2] w2]; [exact H| |];
        destruct H as [-> H]; fine.
    + intros []. intros l w [-> Hn]. cbn. fine.
  - repeat fwd.
  - repeat fwd.
Qed.

(** * Sessions *)

Definition svals (s : session) : nat := length (validations (s_trace s)).

Lemma on_fine {L} (wrap : L -> mech) l0 (m : M L state) s script r out s' e input :
  fine_step wrap l0 m -> s_mech s = wrap l0 ->
  (forall w, mech_step e input (s_mech s) w = on wrap l0 m (s_mech s) w) ->
  step e s input script = (r, out, s') ->
  (exists l, s_mech s' = wrap l) /\
  match r with
  | Ok a => fine_ok (s_mech s) (svals s) a (s_mech s') (svals s')
  | _ => fine_x (s_mech s) (svals s) (s_mech s') (svals s')
  end.
Proof.
  intros Hf Em Hs H. unfold step, run in H. rewrite Hs in H. unfold on in H.
  specialize (Hf (svals s) l0 (mk_world [] script (s_trace s) (s_rng s) (s_val s))
                 (conj eq_refl eq_refl)).
  destruct (m l0 _) as [[r1 l1] w1]. injection H as <- <- <-. cbn [s_mech s_trace].
  split; [eauto|]. unfold svals at 2 4. cbn [s_trace]. rewrite Em.
  destruct r1; exact Hf.
Qed.

Lemma step_fine e s input script r out s' :
  ~ is_gssapi (s_mech s) -> step e s input script = (r, out, s') ->
  (~ is_gssapi (s_mech s') /\ (is_scram (s_mech s) <-> is_scram (s_mech s'))) /\
  match r with
  | Ok a => fine_ok (s_mech s) (svals s) a (s_mech s') (svals s')
  | _ => fine_x (s_mech s) (svals s) (s_mech s') (svals s')
  end.
Proof.
  intros Hg H. destruct (s_mech s) as [| |l|l| | | | |l|l|l|l|a l|a l|l|l] eqn:Em;
    try (exfalso; apply Hg; exact I).
  all: rewrite <- Em.
  1: edestruct (on_fine (fun _ => XPlainC) tt) as [[l' E] K]; [apply fine_plain_c|exact Em| |exact H|].
  3: edestruct (on_fine (fun _ => XPlainS) tt) as [[l' E] K]; [apply fine_plain_s|exact Em| |exact H|].
  5: edestruct (on_fine XLoginC l) as [[l' E] K]; [apply fine_login_c|exact Em| |exact H|].
  7: edestruct (on_fine XLoginS l) as [[l' E] K]; [apply fine_login_s|exact Em| |exact H|].
  9: edestruct (on_fine (fun _ => XExternalC) tt) as [[l' E] K]; [apply fine_external_c|exact Em| |exact H|].
  11: edestruct (on_fine (fun _ => XExternalS) tt) as [[l' E] K]; [apply fine_external_s|exact Em| |exact H|].
  13: edestruct (on_fine (fun _ => XAnonymousC) tt) as [[l' E] K]; [apply fine_anonymous_c|exact Em| |exact H|].
  15: edestruct (on_fine (fun _ => XAnonymousS) tt) as [[l' E] K]; [apply fine_anonymous_s|exact Em| |exact H|].
  17: edestruct (on_fine XXOAuth2C l) as [[l' E] K]; [apply fine_xoauth2_c|exact Em| |exact H|].
  19: edestruct (on_fine XXOAuth2S l) as [[l' E] K]; [apply fine_xoauth2_s|exact Em| |exact H|].
  21: edestruct (on_fine XOAuthBearerC l) as [[l' E] K]; [apply fine_oauthbearer_c|exact Em| |exact H|].
  23: edestruct (on_fine XOAuthBearerS l) as [[l' E] K]; [apply fine_oauthbearer_s|exact Em| |exact H|].
  25: edestruct (on_fine (XScramC a) l) as [[l' E] K]; [apply fine_scram_c|exact Em| |exact H|].
  27: edestruct (on_fine (XScramS a) l) as [[l' E] K]; [apply fine_scram_s|exact Em| |exact H|].
  all: first [ rewrite Em; reflexivity
             | split; [rewrite E, Em; split; [intros []|reflexivity]|exact K] ].
Qed.

(** C49 *)
Theorem few_running e s n s' :
  ~ is_gssapi (s_mech s) -> history e s n s' -> n <= 2.
Proof.
  intros Hg H.
  enough (K : ~ is_gssapi (s_mech s') /\ n + rank (s_mech s') <= rank (s_mech s)).
  { assert (rank (s_mech s) <= 2); [|lia].
    destruct (s_mech s) as [| |[]|[]| | | | |[]|[]|[]|[]|a [[]|]|a [[]|]|l|l]; cbn; lia. }
  induction H as [|n s1 input script out s2 H IH E|n s1 input script r out s2 H IH E Hr].
  - split; [exact Hg|lia].
  - destruct IH as [Hg1 Hn]. destruct (step_fine _ _ _ _ _ _ _ Hg1 E) as [[Hg2 _] [K _]].
    split; [exact Hg2|lia].
  - destruct IH as [Hg1 Hn]. destruct (step_fine _ _ _ _ _ _ _ Hg1 E) as [[Hg2 _] K].
    split; [exact Hg2|]. destruct r as [[|b]|x|]; [congruence| | |]; destruct K as [K _]; lia.
Qed.

Lemma ongoing_fine e s s' : ~ is_gssapi (s_mech s) -> ongoing e s s' ->
  ~ is_gssapi (s_mech s') /\ (is_scram (s_mech s) <-> is_scram (s_mech s')) /\
  svals s' + owed (s_mech s') <= svals s + owed (s_mech s) /\
  (~ is_scram (s_mech s) -> svals s' + owed (s_mech s') = svals s + owed (s_mech s)).
Proof.
  intros Hg H. induction H as [|s1 input script out s2 H IH E].
  - split; [exact Hg|]. split; [reflexivity|]. split; [lia|reflexivity].
  - destruct IH as [Hg1 [Hs [Hle Heq]]].
    destruct (step_fine _ _ _ _ _ _ _ Hg1 E) as [[Hg2 Hs2] [_ [K1 K2]]].
    split; [exact Hg2|]. split; [rewrite Hs; exact Hs2|]. split; [lia|].
    intros Hn. rewrite K2, Heq by tauto. reflexivity.
Qed.

Lemma svals_events s s' evs : new_events s s' evs -> svals s' = svals s + length (validations evs).
Proof. intros H. unfold svals. rewrite H, validations_app, app_length. reflexivity. Qed.
Lemma svals_fresh s s' evs : new_events s s' evs -> svals s' <= svals s + 1 ->
  length (validations evs) <= 1.
Proof. intros H K. rewrite (svals_events _ _ _ H) in K. lia. Qed.

(** C47 *)
Theorem at_most_one_validation e reg name m s s1 input script r out s2 evs :
  server_start reg name = Ok (Builtin (s_mech s), m) ->
  ongoing e s s1 -> step e s1 input script = (r, out, s2) -> new_events s s2 evs ->
  m <> DGssapi -> length (validations evs) <= 1.
Proof.
  intros Hst Ho H Hn Hm.
  assert (Hg : ~ is_gssapi (s_mech s) /\ owed (s_mech s) = 1).
  { apply server_exact in Hst. destruct Hst as [_ Hf].
    remember (s_mech s) as ms. clear - Hf Hm.
    inversion Hf; subst; cbn; try (split; [intros []|reflexivity]). congruence. }
  destruct Hg as [Hg H1]. destruct (ongoing_fine _ _ _ Hg Ho) as [Hg1 [_ [Hle _]]].
  destruct (step_fine _ _ _ _ _ _ _ Hg1 H) as [_ K].
  apply (svals_fresh _ _ _ Hn).
  destruct r as [[|b]|x|]; destruct K as [_ K]; try (destruct K as [K _]); lia.
Qed.

Theorem exactly_one_validation e reg name m s s1 input script b out s2 evs :
  server_start reg name = Ok (Builtin (s_mech s), m) ->
  ongoing e s s1 -> step e s1 input script = (Ok (Finished b), out, s2) -> new_events s s2 evs ->
  m <> DGssapi -> (forall a p, m <> DScram a p) -> length (validations evs) = 1.
Proof.
  intros Hst Ho H Hn Hm Hsc.
  assert (Hg : ~ is_gssapi (s_mech s) /\ ~ is_scram (s_mech s) /\ owed (s_mech s) = 1).
  { apply server_exact in Hst. destruct Hst as [_ Hf].
    remember (s_mech s) as ms. clear - Hf Hm Hsc.
    inversion Hf; subst; cbn; try (split; [intros []|split; [intros []|reflexivity]]);
      exfalso; [eapply Hsc|eapply Hsc|apply Hm]; reflexivity. }
  destruct Hg as [Hg [Hns H1]]. destruct (ongoing_fine _ _ _ Hg Ho) as [Hg1 [Hs [_ Heq]]].
  destruct (step_fine _ _ _ _ _ _ _ Hg1 H) as [_ [_ [_ K]]].
  specialize (Heq Hns). specialize (K ltac:(tauto)).
  rewrite (svals_events _ _ _ Hn) in K. lia.
Qed.
