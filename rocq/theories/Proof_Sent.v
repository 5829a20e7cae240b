(** When there is a message to send (C110). *)
From Coq Require Import Lia.
From Verif Require Import Bytes Utf8 Types World WorldFacts MonadFacts CallbackSpec Simple OAuth
  Base64 Num ScramParser Scram Gssapi Session Frame Spec_Order Spec_Talk Spec_Sent Proof_Talk.
Open Scope m_scope.

Definition long (w : world) : nat := length (w_out w).

(** If [m] succeeds, it has written something. *)
Definition fills {L A} (m : M L A) : Prop :=
  forall l w a l1 w1, no_zero (w_script w) -> m l w = (Ok a, l1, w1) -> long w < long w1.
(** If [m] announces a message, it has written something. *)
Definition speaks {L} (m : M L state) : Prop :=
  forall l w st l1 w1, no_zero (w_script w) -> m l w = (Ok st, l1, w1) ->
    st = Finished false \/ long w < long w1.

Lemma ext_long w w' : ext w w' -> long w <= long w'.
Proof. intros [evs [o [_ [H _]]]]. unfold long. rewrite H, app_length. lia. Qed.
Lemma ext_zero w w' : ext w w' -> no_zero (w_script w) -> no_zero (w_script w').
Proof. intros [evs [o [_ [_ [_ [H _]]]]]]. exact (no_zero_left _ _ H). Qed.
Lemma keeps_eq {L A} (m : M L A) l w r l1 w1 : keeps ext m -> m l w = (r, l1, w1) -> ext w w1.
Proof. intros H E. specialize (H l w). rewrite E in H. exact H. Qed.

Lemma fills_here {L A B} (m : M L A) (f : A -> M L B) :
  fills m -> keeps ext m -> (forall a, keeps ext (f a)) -> fills (bind m f).
Proof.
  intros H K1 K2 l w b l2 w2 Z E. apply bind_ok in E. destruct E as [a [l1 [w1 [E1 E2]]]].
  specialize (H _ _ _ _ _ Z E1). apply (keeps_eq _ _ _ _ _ _ (K2 a)) in E2.
  apply ext_long in E2. lia.
Qed.
Lemma fills_later {L A B} (m : M L A) (f : A -> M L B) :
  keeps ext m -> (forall a, fills (f a)) -> fills (bind m f).
Proof.
  intros K H l w b l2 w2 Z E. apply bind_ok in E. destruct E as [a [l1 [w1 [E1 E2]]]].
  apply (keeps_eq _ _ _ _ _ _ K) in E1. specialize (H _ _ _ _ _ _ (ext_zero _ _ E1 Z) E2).
  apply ext_long in E1. lia.
Qed.
Lemma fills_write {L} b x : @fills L _ (write_all (b :: x)).
Proof.
  intros l w a l1 w1 _ E. apply write_all_ok in E. destruct E as [_ H]. apply wrote_out in H.
  unfold long. rewrite H, app_length. cbn. lia.
Qed.
Lemma fills_vectored {L} bufs : concat bufs <> [] -> @fills L _ (write_all_vectored bufs).
Proof.
  intros N l w a l1 w1 Z E. apply write_all_vectored_ok in E.
  destruct E as [_ [p [q [_ [_ [H P]]]]]]. specialize (P Z). subst p. apply wrote_out in H.
  unfold long. rewrite H, app_length. destruct (concat bufs); [easy|]. cbn. lia.
Qed.
Lemma fills_fail {L A} x : @fills L A (fail x).
Proof. intros l w a l1 w1 _ [=]. Qed.
Lemma fills_panic {L A} : @fills L A panic.
Proof. intros l w a l1 w1 _ [=]. Qed.
Lemma fills_locally {L L' A} (l0 : L') (m : M L' A) : fills m -> fills (@locally L L' A l0 m).
Proof.
  intros H l w a l1 w1 Z E. unfold locally in E. destruct (m l0 w) as [[[b|x|] l2] w2] eqn:F; try discriminate.
  injection E as <- <- <-. exact (H _ _ _ _ _ Z F).
Qed.
Lemma fills_need {L G} e q c (f : pval q -> M L G) : (forall v, fills (f v)) -> fills (need_with e q c f).
Proof.
  intros H l w a l1 w1 Z E. apply need_with_ok in E.
  destruct E as [v [cs1 [cs2 [w2 [_ [_ [E ->]]]]]]]. apply H in E; [exact E|exact Z].
Qed.
Lemma fills_speaks {L} (m : M L state) : fills m -> speaks m.
Proof. intros H l w st l1 w1 Z E. right. exact (H _ _ _ _ _ Z E). Qed.
Lemma speaks_bind {L A} (m : M L A) f : keeps ext m -> (forall a, speaks (f a)) -> speaks (bind m f).
Proof.
  intros K H l w b l2 w2 Z E. apply bind_ok in E. destruct E as [a [l1 [w1 [E1 E2]]]].
  apply (keeps_eq _ _ _ _ _ _ K) in E1. destruct (H _ _ _ _ _ _ (ext_zero _ _ E1 Z) E2) as [|H1]; [auto|].
  apply ext_long in E1. right. lia.
Qed.
Lemma speaks_done {L} : @speaks L (ret (Finished false)).
Proof. intros l w st l1 w1 _ [= <- _ _]. auto. Qed.
Lemma speaks_validated {L} e c (m : M L state) :
  speaks m -> speaks (bind m (fun a => bind (validate e c) (fun _ => ret a))).
Proof.
  intros H l w l1 l2 w1 Z E. apply bind_ok in E. destruct E as [b [l3 [w2 [E1 E2]]]].
  apply bind_ok in E2. destruct E2 as [u [l4 [w3 [E2 E3]]]]. injection E3 as -> <- <-.
  apply (keeps_eq _ _ _ _ _ _ (ext_validate e c)), ext_long in E2.
  destruct (H _ _ _ _ _ Z E1); [auto|right; lia].
Qed.
Lemma speaks_need {L} e q c (f : pval q -> M L state) : (forall v, speaks (f v)) -> speaks (need_with e q c f).
Proof.
  intros H l w a l1 w1 Z E. apply need_with_ok in E.
  destruct E as [v [cs1 [cs2 [w2 [_ [_ [E ->]]]]]]]. apply H in E; [exact E|exact Z].
Qed.
Lemma fills_json {L} e x : e_json_to e x <> [] -> @fills L _ (write_json e x).
Proof.
  intros N l w a l1 w1 Z E. unfold write_json in E.
  destruct (write_all (e_json_to e x) l w) as [[[u|y|] l2] w2] eqn:F; try discriminate.
  injection E as _ <- <-. destruct (e_json_to e x) as [|b r]; [easy|].
  exact (fills_write b r _ _ _ _ _ Z F).
Qed.

Ltac kept := unfold_steps; pose proof ext_frame as F;
  repeat (first
    [ keep_step F | apply ext_validate | apply ext_asks | apply ext_writes | apply ext_draws | apply ext_admits
    | intros; apply ext_admits ]).

Definition speaks_at {L} (l : L) (m : M L state) : Prop :=
  forall w st l1 w1, no_zero (w_script w) -> m l w = (Ok st, l1, w1) ->
    st = Finished false \/ long w < long w1.
Lemma speaks_on {L} wrap (l : L) m l0 : speaks_at l m -> speaks_at l0 (on wrap l m).
Proof.
  intros H w st l1 w1 Z E. unfold on in E. destruct (m l w) as [[r l2] w2] eqn:F.
  injection E as -> <- <-. exact (H _ _ _ _ Z F).
Qed.
Lemma speaks_any {L} (l : L) m : speaks m -> speaks_at l m.
Proof. intros H w st l1 w1. apply H. Qed.
Lemma speaks_getl {L} (l : L) (f : L -> M L state) : speaks (f l) -> speaks_at l (bind getl f).
Proof. intros H w st l1 w1 Z E. exact (H _ _ _ _ _ Z E). Qed.

(** No write so far: [later]; the write comes now: [now]. *)
Ltac later := apply fills_later; [solve [kept]|intros ?].
Ltac now_ t := apply fills_here; [t|solve [kept]|intros; solve [kept]].

Lemma plain_speaks e input : speaks (plain_client_step e input).
Proof.
  apply fills_speaks. unfold plain_client_step. later. now_ ltac:(apply fills_write).
Qed.
Lemma login_speaks e input l : speaks_at l (login_server_step e input).
Proof.
  unfold login_server_step. apply speaks_getl. destruct l as [| |u|].
  - apply fills_speaks. now_ ltac:(apply fills_write).
  - apply fills_speaks. destruct input as [x|]; [|apply fills_fail].
    destruct (from_utf8 x); [|apply fills_fail]. now_ ltac:(apply fills_write).
  - destruct input as [x|]; [|apply fills_speaks, fills_fail].
    apply speaks_bind; [apply ext_validate|intros _]. apply speaks_bind; [kept|intros _]. apply speaks_done.
  - apply fills_speaks, fills_fail.
Qed.
Lemma client_first_fills e plus : fills (send_client_first e plus).
Proof.
  unfold send_client_first. do 7 later.
  now_ ltac:(apply fills_vectored; destruct (fst a5); discriminate).
Qed.
Lemma server_first_fills {L} e a s i : @fills L _ (handle_server_first e a s i).
Proof.
  unfold handle_server_first. later.
  destruct (strip_prefix _ _) as [[|b r]|]; try apply fills_fail.
  destruct (from_utf8 _); [|apply fills_fail]. destruct (parse_u32 _); [|apply fills_fail].
  destruct (N.eqb _ _); [apply fills_fail|]. destruct (decode _); [|apply fills_fail].
  later. later. now_ ltac:(apply fills_vectored; discriminate).
Qed.
Lemma scram_client_speaks e a input l : speaks_at l (scram_client_step e a input).
Proof.
  unfold scram_client_step. apply speaks_getl.
  apply speaks_bind; [kept|intros _]. destruct l as [[plus|s|s]|].
  - apply fills_speaks. now_ ltac:(apply fills_locally, client_first_fills).
  - apply fills_speaks. destruct input; [|apply fills_fail].
    now_ ltac:(apply server_first_fills).
  - destruct input; [|apply fills_speaks, fills_fail].
    apply speaks_bind; [kept|intros _]. apply speaks_done.
  - apply fills_speaks, fills_panic.
Qed.
Lemma final_fills {L} m : @fills L _ (send_final m).
Proof. unfold send_final. now_ ltac:(apply fills_vectored; destruct m; discriminate). Qed.
Lemma client_first_read e a plus i : fills (handle_client_first e a plus i).
Proof.
  unfold handle_client_first. do 5 later. destruct a3 as [[[[it sa] k1] k2]|].
  - now_ ltac:(apply fills_vectored; discriminate).
  - later. now_ ltac:(apply fills_vectored; discriminate).
Qed.
Lemma client_final_read {L} e a d i : @fills L _ (handle_client_final e a d i).
Proof.
  unfold handle_client_final. later. destruct d as [d|]; [|apply final_fills].
  destruct (decode _); [|apply fills_fail]. destruct (negb _); [apply final_fills|].
  destruct (strip_prefix _ _); [|apply final_fills]. destruct (_ && _)%bool; [|apply final_fills].
  destruct (decode_slice _ _); [|apply fills_fail]. later.
  destruct (bytes_eqb _ _); [|apply final_fills]. now_ ltac:(apply final_fills).
Qed.
Lemma scram_server_speaks e a input l : speaks_at l (scram_server_step e a input).
Proof.
  unfold scram_server_step. apply speaks_getl. apply fills_speaks.
  later. destruct l as [[plus|d|]|]; try apply fills_fail; try apply fills_panic.
  - destruct input; [|apply fills_fail]. now_ ltac:(apply fills_locally, client_first_read).
  - destruct input; [|apply fills_fail]. now_ ltac:(apply client_final_read).
Qed.
Lemma xoauth2_speaks e input l : l <> OcWaiting -> speaks_at l (xoauth2_client_step e input).
Proof.
  intros N. unfold xoauth2_client_step. apply speaks_getl, fills_speaks.
  destruct l; [|easy|apply fills_fail].
  now_ ltac:(apply fills_need; intros v; now_ ltac:(apply fills_vectored; discriminate)).
Qed.
Lemma bearer_speaks e input l : l <> OcWaiting -> speaks_at l (oauthbearer_client_step e input).
Proof.
  intros N. unfold oauthbearer_client_step. apply speaks_getl, fills_speaks.
  destruct l; [|easy|apply fills_fail]. now_ ltac:(apply fills_write).
Qed.
Lemma bearer_server_speaks e input l : (forall x, e_json_to e x <> []) ->
  speaks_at l (oauthbearer_server_step e input).
Proof.
  intros J. unfold oauthbearer_server_step. apply speaks_getl.
  destruct l; [|apply speaks_done]. destruct input as [x|]; [|apply fills_speaks, fills_fail].
  apply speaks_bind; [kept|intros m]. apply speaks_validated, speaks_need. intros [v|].
  - apply fills_speaks. now_ ltac:(apply fills_json, J).
  - apply speaks_done.
Qed.

Theorem message_worded e s input script st out s' :
  worded e (s_mech s) -> no_zero script -> step e s input script = (Ok st, out, s') ->
  (announces st <-> out <> []).
Proof.
  intros Wd Z H. split.
  - intros An E. unfold step in H. apply run_ok in H. destruct H as [m' [w' [H [-> _]]]].
    assert (Q : speaks_at (s_mech s) (mech_step e input)).
    2:{ apply Q in H; [|exact Z]. unfold long in H. rewrite E in H. cbn in H.
        destruct H as [->|H]; [destruct An; discriminate|lia]. }
    clear H An E. unfold mech_step. 
    assert (G : forall (m : mech) f, speaks_at m (f m) -> speaks_at m (bind getl f)).
    { intros m f K w st0 l1 w1 Z0 E0. exact (K _ _ _ _ Z0 E0). }
    apply G. clear G.
    destruct (s_mech s) as [| |l|l| | | | |l|l|l|l|a l|a l|l|l]; cbn [worded] in Wd; try easy; apply speaks_on.
    + apply speaks_any, plain_speaks.
    + apply speaks_any. unfold plain_server_step.
      repeat lazymatch goal with
      | |- speaks (fail _) => apply fills_speaks, fills_fail
      | |- speaks (bind (validate _ _) _) => apply speaks_bind; [apply ext_validate|intros _]
      | |- speaks (match ?x with _ => _ end) => destruct x
      | |- speaks (ret _) => apply speaks_done
      end.
    + apply login_speaks.
    + apply speaks_any. unfold external_server_step. destruct (from_utf8 _); [|apply fills_speaks, fills_fail].
      apply speaks_bind; [apply ext_validate|intros _]. apply speaks_done.
    + apply speaks_any. unfold anonymous_server_step. destruct (from_utf8 _); [|apply fills_speaks, fills_fail].
      apply speaks_bind; [apply ext_validate|intros _]. apply speaks_done.
    + apply xoauth2_speaks, Wd.
    + subst l. apply speaks_getl, speaks_done.
    + apply bearer_speaks, Wd.
    + apply bearer_server_speaks, Wd.
    + apply scram_client_speaks.
    + apply scram_server_speaks.
  - intros N. destruct st as [|[|]]; [left; reflexivity|right; reflexivity|].
    apply no_message_no_bytes in H. congruence.
Qed.

Theorem outcome_reply e s input script st out s' :
  waits_outcome (s_mech s) -> step e s input script = (Ok st, out, s') ->
  out = [] /\ (announces st <-> ~ no_data input) /\ st <> Running.
Proof.
  intros Wt H. unfold step in H. apply run_ok in H. destruct H as [m' [w' [H [-> _]]]].
  unfold mech_step in H. 
  assert (A : forall q v l (w0 : world) st0 l1 w1, w_out w0 = [] ->
    bind (@action oauth_cst e q empty_provider v) (fun _ => ret (Finished true)) l w0 = (Ok st0, l1, w1) ->
    st0 = Finished true /\ w_out w1 = []).
  { intros q v l w0 st0 l1 w1 O E. apply bind_ok in E. destruct E as [u [l2 [w2 [E1 E2]]]].
    injection E2 as <- <- <-. pose proof (keeps_mute_action (L := oauth_cst) e q empty_provider v l w0) as K.
    rewrite E1 in K. split; [reflexivity|]. unfold mute in K. congruence. }
  assert (D : no_data input \/ ~ no_data input /\ unwrap_or_empty input <> []).
  { unfold no_data. destruct input as [[|b x]|]; [auto|right; split; [intros [?|?]; discriminate|discriminate]|auto]. }
  assert (D1 : no_data input -> unwrap_or_empty input = []) by (intros [->| ->]; reflexivity).
  destruct Wt as [E|E]; rewrite E in H; cbn [bind getl] in H; apply on_eq in H;
    destruct H as [l' [H _]]; cbv [bind getl setl xoauth2_client_step oauthbearer_client_step] in H.
  - destruct D as [D|[D D2]].
    + rewrite (D1 D) in H. injection H as <- _ <-. split; [reflexivity|]. split; [|discriminate].
      split; [intros [?|?]; discriminate|intros N; destruct (N D)].
    + destruct (unwrap_or_empty input) as [|b x]; [easy|].
      destruct (from_utf8 (b :: x)) as [t|]; [|discriminate].
      apply (A PXOAuth2Error t) in H; [|reflexivity]. destruct H as [-> O].
      split; [exact O|]. split; [|discriminate]. split; [auto|right; reflexivity].
  - destruct D as [D|[D D2]].
    + rewrite (D1 D) in H. injection H as <- _ <-. split; [reflexivity|]. split; [|discriminate].
      split; [intros [?|?]; discriminate|intros N; destruct (N D)].
    + destruct (unwrap_or_empty input) as [|b x]; [easy|].
      destruct (e_json_from e (b :: x)) as [t|]; [|discriminate].
      apply (A POAuthBearerErrored t) in H; [|reflexivity]. destruct H as [-> O].
      split; [exact O|]. split; [|discriminate]. split; [auto|right; reflexivity].
Qed.
