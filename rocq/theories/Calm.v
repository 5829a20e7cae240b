(** Computations that never panic. *)
From Verif Require Import Bytes BytesFacts Types World CallbackSpec WorldFacts MonadFacts
  Simple OAuth Scram Gssapi Session.
Open Scope m_scope.

Definition calm {L A} (m : M L A) : Prop := forall l w, fst (fst (m l w)) <> Panic.

Lemma calm_ret {L A} (a : A) : calm (@ret L A a).
Proof. intros l w; discriminate. Qed.
Lemma calm_fail {L A} x : calm (@fail L A x).
Proof. intros l w; discriminate. Qed.
Lemma calm_getl {L} : calm (@getl L).
Proof. intros l w; discriminate. Qed.
Lemma calm_setl {L} (x : L) : calm (setl x).
Proof. intros l w; discriminate. Qed.
Lemma calm_log {L} x : calm (@log L x).
Proof. intros l w; discriminate. Qed.
Lemma calm_of_res {L A} (r : res serr A) : r <> Panic -> calm (@of_res L A r).
Proof. intros H l w; exact H. Qed.
Lemma calm_bind {L A B} (m : M L A) (f : A -> M L B) :
  calm m -> (forall a, calm (f a)) -> calm (bind m f).
Proof. intros Hm Hf l w. apply bind_not_panic; [apply Hm|]. intros; apply Hf. Qed.
Lemma calm_locally {L L' A} (l0 : L') (m : M L' A) : calm m -> calm (@locally L L' A l0 m).
Proof.
  intros Hm l w. unfold locally. specialize (Hm l0 w).
  destruct (m l0 w) as [[[a|x|] l1] w1]; simpl in *; congruence.
Qed.
Lemma calm_ignore {L A} (m : M L A) : calm m -> calm (ignore m).
Proof.
  intros Hm l w. unfold ignore. specialize (Hm l w).
  destruct (m l w) as [[[a|x|] l1] w1]; simpl in *; congruence.
Qed.
Lemma calm_on {L A} (wrap : L -> mech) l0 (m : M L A) : calm m -> calm (on wrap l0 m).
Proof.
  intros Hm l w. unfold on. specialize (Hm l0 w). destruct (m l0 w) as [[r l1] w1]. exact Hm.
Qed.
Lemma calm_maybe_need_with {L G} e q c (f : pval q -> M L G) :
  (forall v, calm (f v)) -> calm (maybe_need_with e q c f).
Proof.
  intros Hf l w. destruct (maybe_need_with e q c f l w) as [[r l'] w'] eqn:E.
  apply maybe_need_with_inv in E. inversion E; subst; simpl.
  - match goal with H : _ \/ _ |- _ => destruct H as [Hr|[? Hr]] end; congruence.
  - match goal with H : _ \/ _ |- _ => destruct H as [Hr|[Hr|[? Hr]]] end; congruence.
  - match goal with H : _ \/ _ |- _ => destruct H as [Hr|[? Hr]] end; congruence.
  - match goal with H : f v l ?w = _ |- _ => specialize (Hf v l w); rewrite H in Hf end.
    simpl in Hf. congruence.
Qed.
Lemma calm_need_with {L G} e q c (f : pval q -> M L G) :
  (forall v, calm (f v)) -> calm (need_with e q c f).
Proof.
  intros Hf. unfold need_with. apply calm_bind; [apply calm_maybe_need_with; assumption|].
  intros [g|]; [apply calm_ret|apply calm_fail].
Qed.
Lemma calm_maybe_need_cb_data {L G} e name c (f : bytes -> M L G) :
  (forall v, calm (f v)) -> calm (maybe_need_cb_data e name c f).
Proof.
  intros Hf. unfold maybe_need_cb_data. apply calm_bind; [apply calm_log|]. intros _.
  destruct (e_chan e name).
  - apply calm_bind; [apply Hf|]. intros; apply calm_ret.
  - apply calm_maybe_need_with; assumption.
Qed.
Lemma calm_need_cb_data {L G} e name c (f : bytes -> M L G) :
  (forall v, calm (f v)) -> calm (need_cb_data e name c f).
Proof.
  intros Hf. unfold need_cb_data. apply calm_bind; [apply calm_maybe_need_cb_data; assumption|].
  intros [g|]; [apply calm_ret|apply calm_fail].
Qed.
Lemma calm_action {L} e q c v : calm (@action L e q c v).
Proof.
  intros l w. unfold action. destruct (run_action _ _ _ _) as [[r slot] tr].
  destruct (mask_early r); [discriminate|]. destruct slot; discriminate.
Qed.
Lemma calm_validate {L} e c : calm (@validate L e c).
Proof. intros l w. unfold validate. destruct (run_validate _ _ _) as [[v|] slot]; discriminate. Qed.
Lemma calm_write_all {L} data : calm (@write_all L data).
Proof.
  intros l w. destruct (write_all_spec data l w) as [p [q [w' [_ [_ [[-> _]|[x ->]]]]]]];
    discriminate.
Qed.
Lemma calm_write_all_vectored {L} bufs : calm (@write_all_vectored L bufs).
Proof.
  intros l w.
  destruct (write_all_vectored_spec bufs l w) as [p [q [w' [_ [_ [[-> _]|[x ->]]]]]]];
    discriminate.
Qed.
Lemma calm_draws {L} e n : calm (@draws L e n).
Proof.
  induction n as [|n IH]; [apply calm_ret|]. cbn [draws]. apply calm_bind.
  - intros l w; discriminate.
  - intros x. apply calm_bind; [exact IH|]. intros; apply calm_ret.
Qed.
Lemma calm_write_json {L} e x : calm (@write_json L e x).
Proof.
  intros l w. unfold write_json. pose proof (@calm_write_all L (e_json_to e x) l w) as H.
  destruct (write_all _ l w) as [[[]]]; simpl in *; congruence.
Qed.
Lemma calm_ob_write_kv {L} kv : calm (@ob_write_kv L kv).
Proof.
  induction kv as [|[k v] r IH]; cbn [ob_write_kv]; [apply calm_ret|].
  apply calm_bind; [apply calm_write_all_vectored|]. intros; exact IH.
Qed.

Ltac calm_step :=
  lazymatch goal with
  | |- calm (ret _) => apply calm_ret
  | |- calm (fail _) => apply calm_fail
  | |- calm getl => apply calm_getl
  | |- calm (setl _) => apply calm_setl
  | |- calm (log _) => apply calm_log
  | |- calm (of_res _) => apply calm_of_res
  | |- calm (bind _ _) => apply calm_bind; [|intros ?]
  | |- calm (locally _ _) => apply calm_locally
  | |- calm (ignore _) => apply calm_ignore
  | |- calm (on _ _ _) => apply calm_on
  | |- calm (need_with _ _ _ _) => apply calm_need_with; intros ?
  | |- calm (maybe_need_with _ _ _ _) => apply calm_maybe_need_with; intros ?
  | |- calm (need_cb_data _ _ _ _) => apply calm_need_cb_data; intros ?
  | |- calm (maybe_need_cb_data _ _ _ _) => apply calm_maybe_need_cb_data; intros ?
  | |- calm (action _ _ _ _) => apply calm_action
  | |- calm (validate _ _) => apply calm_validate
  | |- calm (write_all_vectored _) => apply calm_write_all_vectored
  | |- calm (write_all _) => apply calm_write_all
  | |- calm (write_json _ _) => apply calm_write_json
  | |- calm (ob_write_kv _) => apply calm_ob_write_kv
  | |- calm (draws _ _) => apply calm_draws
  | |- calm (match ?x with _ => _ end) => destruct x eqn:?
  | |- calm (scram_parse _) => unfold scram_parse
  | |- calm (scram_proto _) => unfold scram_proto
  | |- calm (gss_try _) => unfold gss_try
  | |- calm gss_err => unfold gss_err
  end.

(** Parsers without a panic. *)
Lemma xoauth2_parse_calm input : xoauth2_parse input <> Panic.
Proof.
  unfold xoauth2_parse.
  repeat match goal with |- context [match ?x with _ => _ end] => destruct x end; discriminate.
Qed.
Lemma ob_fields_calm parts t f : ob_fields parts t f <> Panic.
Proof.
  revert t f; induction parts as [|p r IH]; intros t f; cbn [ob_fields]; [discriminate|].
  destruct (strip_prefix _ p).
  - unfold utf8_or. destruct (Utf8.from_utf8 _); [apply IH|discriminate].
  - destruct (split is_equals p) as [|k [|v [|]]]; try discriminate.
    unfold utf8_or. destruct (Utf8.from_utf8 k); [|discriminate].
    destruct (Utf8.from_utf8 v); [apply IH|discriminate].
Qed.
Lemma ob_parse_calm input : ob_parse input <> Panic.
Proof.
  unfold ob_parse. destruct (strip_suffix _ _); [|discriminate].
  destruct (split is_soh _) as [|gs2 it]; [discriminate|].
  destruct (split is_comma gs2) as [|first rest]; [discriminate|].
  destruct (negb _); [discriminate|]. destruct rest as [|za r]; [discriminate|].
  unfold rbind at 1, utf8_or.
  assert (H : forall z, rbind (ob_fields it None []) (fun tf => match fst tf with
     | Some t => Ok (mk_obmsg z t (snd tf)) | None => Err ObMissingToken end) <> Panic).
  { intros z. pose proof (ob_fields_calm it None []). destruct (ob_fields it None []) as [[[]]| |];
      simpl; congruence. }
  destruct za; [apply H|]. destruct (strip_prefix _ _); [|discriminate].
  destruct (Utf8.from_utf8 _); [apply H|discriminate].
Qed.
Lemma rmap_err_calm {E E' A} (f : E -> E') (r : res E A) : r <> Panic -> rmap_err f r <> Panic.
Proof. destruct r; simpl; congruence. Qed.

Definition is_scram (m : mech) : bool :=
  match m with XScramC _ _ | XScramS _ _ => true | _ => false end.

Lemma escape_calm x : ScramParser.escape x <> Panic.
Proof.
  unfold ScramParser.escape. destruct x; [discriminate|]. destruct (contains _ _); [discriminate|].
  destruct (_ || _); discriminate.
Qed.

Theorem step_calm e input m w :
  is_scram m = false -> fst (fst (mech_step e input m w)) <> Panic.
Proof.
  intros Hm. unfold mech_step, bind, getl.
  match goal with |- fst (fst (match m with _ => _ end _ _)) <> _ => idtac | _ => idtac end.
  revert m w Hm.
  enough (H : forall m, is_scram m = false -> calm (match m with
    | XPlainC => on (fun _ => XPlainC) tt (plain_client_step e input)
    | XPlainS => on (fun _ => XPlainS) tt (plain_server_step e input)
    | XLoginC s => on XLoginC s (login_client_step e input)
    | XLoginS s => on XLoginS s (login_server_step e input)
    | XExternalC => on (fun _ => XExternalC) tt (external_client_step e input)
    | XExternalS => on (fun _ => XExternalS) tt (external_server_step e input)
    | XAnonymousC => on (fun _ => XAnonymousC) tt (anonymous_client_step e input)
    | XAnonymousS => on (fun _ => XAnonymousS) tt (anonymous_server_step e input)
    | XXOAuth2C s => on XXOAuth2C s (xoauth2_client_step e input)
    | XXOAuth2S s => on XXOAuth2S s (xoauth2_server_step e input)
    | XOAuthBearerC s => on XOAuthBearerC s (oauthbearer_client_step e input)
    | XOAuthBearerS s => on XOAuthBearerS s (oauthbearer_server_step e input)
    | XScramC a s => on (XScramC a) s (scram_client_step e a input)
    | XScramS a s => on (XScramS a) s (scram_server_step e a input)
    | XGssapiC s => on XGssapiC s (gss_client_step e input)
    | XGssapiS s => on XGssapiS s (gss_server_step e input)
    end)).
  { intros m w Hm. exact (H m Hm m w). }
  intros m Hm. destruct m; try discriminate Hm;
  unfold plain_client_step, plain_server_step, login_client_step, login_server_step,
    external_client_step, external_server_step, anonymous_client_step, anonymous_server_step,
    xoauth2_client_step, xoauth2_server_step, oauthbearer_client_step, oauthbearer_server_step,
    gss_client_step, gss_server_step,
    gss_client_pending, gss_check_acceptable, gss_server_pending,
    gss_server_installed;
  repeat (first [ calm_step
    | apply rmap_err_calm; first [apply xoauth2_parse_calm|apply ob_parse_calm] ]).
Qed.
