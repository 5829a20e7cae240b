(** The built-in mechanisms with local variables as code of other crates (C104). *)
From Coq Require Import Lia.
From Verif Require Import Bytes Types World CallbackSpec WorldFacts MonadFacts Simple OAuth ScramParser Scram Gssapi
  Frame Session Spec_Session Custom Spec_Custom Proof_Custom.
Open Scope m_scope.

(** [m'] does to the part [proj t] of its state what [m] does to its own and leaves [rest t] alone. *)
Definition sims {T L R A} (proj : T -> L) (rest : T -> R) (m' : M T A) (m : M L A) : Prop :=
  forall t w, match m' t w with (r', t', w') =>
    m (proj t) w = (r', proj t', w') /\ rest t' = rest t end.

Section sims.
Context {T L R : Type} (proj : T -> L) (rest : T -> R).
Notation sim := (sims proj rest).

(** Computations that do not look at the state. *)
Lemma sim_free {A} (f : world -> res serr A * world) :
  sim (fun t w => match f w with (r, w') => (r, t, w') end) (fun l w => match f w with (r, w') => (r, l, w') end).
Proof. intros t w. destruct (f w). auto. Qed.
Lemma sim_res {A} (r : res serr A) : sim (of_res r) (of_res r).
Proof. intros t w. split; reflexivity. Qed.
Lemma sim_ret {A} (a : A) : sim (ret a) (ret a).
Proof. intros t w. split; reflexivity. Qed.
Lemma sim_log ev : sim (log ev) (log ev).
Proof. intros t w. split; reflexivity. Qed.
Lemma sim_write data : sim (write_all data) (write_all data).
Proof. intros t w. unfold write_all. destruct (write_all_fuel _ _ _). auto. Qed.
Lemma sim_vectored bufs : sim (write_all_vectored bufs) (write_all_vectored bufs).
Proof. intros t w. unfold write_all_vectored. destruct bufs; [auto|]. destruct (vec_loop _ _ _ _). auto. Qed.
Lemma sim_draw e : sim (draw e) (draw e).
Proof. intros t w. split; reflexivity. Qed.
Lemma sim_validate e c : sim (validate e c) (validate e c).
Proof. intros t w. unfold validate. destruct (run_validate _ _ _) as [[v|] s]; auto. Qed.
Lemma sim_action e q c v : sim (action e q c v) (action e q c v).
Proof.
  intros t w. unfold action. destruct (run_action _ _ _ _) as [[r s] tr].
  destruct (mask_early r); [auto|]. destruct s; auto.
Qed.
Lemma sim_bind {A B} (m' : M T A) m (f' : A -> M T B) f :
  sim m' m -> (forall a, sim (f' a) (f a)) -> sim (bind m' f') (bind m f).
Proof.
  intros H F t w. specialize (H t w). unfold bind. destruct (m' t w) as [[r t1] w1]. destruct H as [-> E].
  destruct r as [a|x|]; [|auto..]. specialize (F a t1 w1). destruct (f' a t1 w1) as [[r2 t2] w2].
  destruct F as [-> E2]. split; [reflexivity|congruence].
Qed.
Lemma sim_satisfy {G} q (f' : pval q -> M T G) f cb : (forall v, sim (f' v) (f v)) -> forall st t w,
  match run_satisfy q f' cb st t w with (r, st', t', w') =>
    run_satisfy q f cb st (proj t) w = (r, st', proj t', w') /\ rest t' = rest t end.
Proof.
  intros F.
  assert (C : forall st v t w, match cr_satisfy q f' st v t w with (r, st', t', w') =>
    cr_satisfy q f st v (proj t) w = (r, st', proj t', w') /\ rest t' = rest t end).
  { intros st v t w. unfold cr_satisfy. destruct st; [|auto..].
    pose proof (sim_bind _ _ _ _ (sim_log (EvAnswer q v)) (fun _ => F v) t w) as K.
    destruct (bind (log (EvAnswer q v)) (fun _ => f' v) t w) as [[r t1] w1]. destruct K as [-> E].
    destruct r; auto. }
  induction cb as [r|p v k IH|p c k IH|p k IH|p k IH]; intros st t w; cbn [run_satisfy]; try apply IH; [auto|..].
  - destruct (castp v) as [v'|]; [|apply IH]. specialize (C st v' t w).
    destruct (cr_satisfy q f' st v' t w) as [[[r st1] t1] w1]. destruct C as [-> E].
    destruct r as [u|x|]; [| |auto];
      match goal with |- context [run_satisfy q f' (k ?y) _ _ _] => pose proof (IH y st1 t1 w1) as K end;
      destruct (run_satisfy q f' _ st1 t1 w1) as [[[r2 st2] t2] w2]; destruct K as [-> E2]; split; congruence.
  - destruct (prop_eq_dec p q); [|apply IH]. cbv zeta. destruct c as [x|v]; [apply IH|].
    destruct (castp v) as [v'|]; [|apply IH]. specialize (C st v' t (add_event (EvClosure p) w)).
    destruct (cr_satisfy q f' st v' t _) as [[[r st1] t1] w1]. destruct C as [-> E].
    destruct r as [u|x|]; [| |auto];
      match goal with |- context [run_satisfy q f' (k ?y) _ _ _] => pose proof (IH y st1 t1 w1) as K end;
      destruct (run_satisfy q f' _ st1 t1 w1) as [[[r2 st2] t2] w2]; destruct K as [-> E2]; split; congruence.
Qed.
Lemma sim_maybe {G} e q c (f' : pval q -> M T G) f : (forall v, sim (f' v) (f v)) ->
  sim (maybe_need_with e q c f') (maybe_need_with e q c f).
Proof.
  intros F t w. unfold maybe_need_with. cbv zeta.
  pose proof (sim_satisfy q f' f (e_cb e (w_trace w) (e_sd e) c (RSatisfy q)) F CrOpen t (add_event (EvRequest q c) w)) as K.
  destruct (run_satisfy q f' _ _ _ _) as [[[r st] t1] w1]. destruct K as [-> E].
  destruct r as [r|x|]; [|auto..]. destruct (mask_early r) as [[]|]; auto.
Qed.
Lemma sim_chan {G} e n c (f' : bytes -> M T G) f : (forall v, sim (f' v) (f v)) ->
  sim (maybe_need_cb_data e n c f') (maybe_need_cb_data e n c f).
Proof.
  intros F. unfold maybe_need_cb_data. apply sim_bind; [apply sim_log|intros _].
  destruct (e_chan e n); [apply sim_bind; [apply F|intros; apply sim_ret]|apply sim_maybe; exact F].
Qed.

(** Code for [m]. *)
Definition code (e : env) {A} (m : M L A) : Type := {p : prog T A | sim (exec e p) m}.

Lemma sim_eq {A} (m1 m2 : M T A) (m : M L A) : (forall t w, m1 t w = m2 t w) -> sim m2 m -> sim m1 m.
Proof. intros H S t w. rewrite H. apply S. Qed.
Lemma code_of {A} e (m' : M T A) (m : M L A) : coded e m' -> sim m' m -> code e m.
Proof. intros [p H] S. exists p. exact (sim_eq _ _ _ H S). Defined.

Context (e : env).
Lemma code_res {A} (r : res serr A) : code e (of_res r).
Proof. apply (code_of e (of_res r)); [apply coded_res|apply sim_res]. Defined.
Lemma code_ret {A} (a : A) : code e (ret a).
Proof. exact (code_res (Ok a)). Defined.
Lemma code_fail {A} x : code e (@fail L A x).
Proof. exact (code_res (Err x)). Defined.
Lemma code_panic {A} : code e (@panic L A).
Proof. exact (code_res Panic). Defined.
Lemma code_write data : code e (write_all data).
Proof. apply (code_of e (write_all data)); [apply coded_write_all|apply sim_write]. Defined.
Lemma code_vectored bufs : code e (write_all_vectored bufs).
Proof. apply (code_of e (write_all_vectored bufs)); [apply coded_vectored|apply sim_vectored]. Defined.
Lemma code_validate c : code e (validate e c).
Proof. apply (code_of e (validate e c)); [apply coded_validate|apply sim_validate]. Defined.
Lemma code_ignore q c v : code e (ignore (action e q c v)).
Proof.
  exists (GAction q c v (fun _ => GDone (Ok tt))). intros t w. cbn [exec]. unfold bind, catch, ignore.
  pose proof (sim_action e q c v t w) as K. destruct (action e q c v t w) as [[[a|x|] t1] w1];
    destruct K as [-> E]; cbn; auto.
Defined.
Lemma code_draw : code e (draw e).
Proof. exists (GRandom (fun n => GDone (Ok n))). intros t w. split; reflexivity. Defined.
Lemma code_bind {A B} (m : M L A) (f : A -> M L B) : code e m -> (forall a, code e (f a)) -> code e (bind m f).
Proof.
  intros [p H] F. exists (gbind p (fun a => proj1_sig (F a))). refine (sim_eq _ _ _ (exec_gbind e p _ _) _).
  apply sim_bind; [exact H|]. intros a. exact (proj2_sig (F a)).
Defined.
Lemma code_maybe {G} q c (f : pval q -> M L G) : (forall v, code e (f v)) -> code e (maybe_need_with e q c f).
Proof.
  intros F. exists (GNeed q c (fun v => proj1_sig (F v)) (fun x => GDone (match x with inl y => Err y | inr g => Ok g end))).
  refine (sim_eq _ _ _ _ (sim_maybe e q c (fun v => exec e (proj1_sig (F v))) f (fun v => proj2_sig (F v)))).
  intros t w. cbn [exec]. unfold bind, catch. destruct (maybe_need_with _ _ _ _ t w) as [[[a|x|] l1] w1]; reflexivity.
Defined.
Lemma code_need {G} q c (f : pval q -> M L G) : (forall v, code e (f v)) -> code e (need_with e q c f).
Proof. intros F. apply code_bind; [apply code_maybe; exact F|]. intros [g|]; [apply code_ret|apply code_fail]. Defined.
Lemma code_chan {G} n c (f : bytes -> M L G) : (forall v, code e (f v)) -> code e (maybe_need_cb_data e n c f).
Proof.
  intros F. exists (GChan n c (fun v => proj1_sig (F v)) (fun x => GDone (match x with inl y => Err y | inr g => Ok g end))).
  refine (sim_eq _ _ _ _ (sim_chan e n c (fun v => exec e (proj1_sig (F v))) f (fun v => proj2_sig (F v)))).
  intros t w. cbn [exec]. unfold bind, catch. destruct (maybe_need_cb_data _ _ _ _ t w) as [[[a|x|] l1] w1]; reflexivity.
Defined.
Lemma code_need_chan {G} n c (f : bytes -> M L G) : (forall v, code e (f v)) -> code e (need_cb_data e n c f).
Proof. intros F. apply code_bind; [apply code_chan; exact F|]. intros [g|]; [apply code_ret|apply code_fail]. Defined.
Lemma code_draws n : code e (draws e n).
Proof.
  induction n as [|n IH]; [apply code_ret|]. cbn [draws].
  apply code_bind; [apply code_draw|intros x]. apply code_bind; [exact IH|intros l; apply code_ret].
Defined.
Lemma code_getl : code e getl.
Proof. exists (GGet (fun t => GDone (Ok (proj t)))). intros t w. split; reflexivity. Defined.
Context (put : L -> T -> T) (Pp : forall l t, proj (put l t) = l) (Pr : forall l t, rest (put l t) = rest t).
Lemma code_setl l : code e (setl l).
Proof.
  exists (GGet (fun t => GSet (put l t) (GDone (Ok tt)))). intros t w. cbn. split; [|apply Pr].
  unfold setl. rewrite Pp. reflexivity.
Defined.
End sims.

(** Local variables are a second part of the state. *)
Lemma code_locally {L V A} e (l0 : V) (m : M V A) :
  code (@snd L V) (@fst L V) e m -> code (@fst L V) (fun _ => tt) e (locally l0 m).
Proof.
  intros [p H].
  exists (GGet (fun t => GSet (fst t, l0) (gbind p (fun a => GGet (fun t => GDone (Ok (a, snd t))))))).
  intros [l v] w. cbn [exec]. unfold bind at 1 2, getl, setl. rewrite exec_gbind. unfold bind at 1. cbn [fst].
  specialize (H (l, l0) w). destruct (exec e p (l, l0) w) as [[r [l1 v1]] w1]. cbn in H. destruct H as [H ->].
  cbn [fst] in *. unfold locally. rewrite H. destruct r; cbn; auto.
Defined.

Ltac step_code tac :=
  repeat match goal with
  | |- code _ _ _ (ret _) => apply code_ret
  | |- code _ _ _ (fail _) => apply code_fail
  | |- code _ _ _ panic => apply code_panic
  | |- code _ _ _ getl => apply code_getl
  | |- code _ _ _ (setl _) => tac
  | |- code _ _ _ (of_res _) => apply code_res
  | |- code _ _ _ (write_all _) => apply code_write
  | |- code _ _ _ (write_all_vectored _) => apply code_vectored
  | |- code _ _ _ (validate _ _) => apply code_validate
  | |- code _ _ _ (ignore _) => apply code_ignore
  | |- code _ _ _ (draws _ _) => apply code_draws
  | |- code _ _ _ (maybe_need_with _ _ _ _) => apply code_maybe; intros ?
  | |- code _ _ _ (need_with _ _ _ _) => apply code_need; intros ?
  | |- code _ _ _ (maybe_need_cb_data _ _ _ _) => apply code_chan; intros ?
  | |- code _ _ _ (need_cb_data _ _ _ _) => apply code_need_chan; intros ?
  | |- code _ _ _ (bind _ _) => apply code_bind; [|intros ?]
  | |- code _ _ _ (locally _ _) => apply code_locally
  | |- code _ _ _ (match ?x with _ => _ end) => destruct x
  | |- code _ _ _ (let _ := _ in _) => cbv zeta
  end.
Ltac outer L V := step_code ltac:(apply (code_setl _ _ _ (fun l (t : L * V) => (l, snd t))); reflexivity).
Ltac inner L V := step_code ltac:(apply (code_setl _ _ _ (fun v (t : L * V) => (fst t, v))); reflexivity).

Lemma code_stands {L V} e (W : L -> mech) (m : option bytes -> M L state) :
  (forall i t w, mech_step e i (W t) w = on W t (m i) (W t) w) ->
  (forall i, code (@fst L V) (fun _ => tt) e (m i)) -> exists p : custom (L * V), stands_for e p (fun t => W (fst t)).
Proof.
  intros D C. exists (fun i => proj1_sig (C i)).
  intros c s input script r out s' (Em & Et & Er & Ev) H. apply run_ok in H. destruct H as [m' [w' [H [-> ->]]]].
  rewrite Em, Et, Er, Ev, D in H. unfold on in H. unfold cstep.
  pose proof (proj2_sig (C input) (cs_state c) (mk_world [] script (cs_trace c) (cs_rng c) (cs_val c))) as K.
  destruct (exec e _ (cs_state c) _) as [[r1 t1] w1]. destruct K as [K _]. rewrite K in H.
  injection H as -> <- ->. eexists. split; [reflexivity|]. repeat split.
Qed.

Lemma scram_client_code e a : exists p : custom (option scram_cst * cf_locals), stands_for e p (fun t => XScramC a (fst t)).
Proof.
  refine (code_stands e (XScramC a) (scram_client_step e a) _ _); [reflexivity|]. intros i.
  unfold scram_client_step. unfold handle_server_first, handle_server_final, client_keys, scram_parse, scram_proto, exact.
  outer (option scram_cst) cf_locals.
  unfold send_client_first, client_cbflag, push_gs2, set_cbdata, generate_nonce, esc.
  inner (option scram_cst) cf_locals.
Qed.
Lemma scram_server_code e a : exists p : custom (option scram_sst * bytes), stands_for e p (fun t => XScramS a (fst t)).
Proof.
  refine (code_stands e (XScramS a) (scram_server_step e a) _ _); [reflexivity|]. intros i.
  unfold scram_server_step. unfold handle_client_final, send_final, scram_parse, scram_proto, exact.
  outer (option scram_sst) bytes.
  unfold handle_client_first, generate_nonce, random_bytes, scram_parse.
  inner (option scram_sst) bytes.
Qed.
Lemma gss_client_code e : exists p : custom (gss_cst * bytes), stands_for e p (fun t => XGssapiC (fst t)).
Proof.
  refine (code_stands e XGssapiC (gss_client_step e) _ _); [reflexivity|]. intros i.
  unfold gss_client_step, gss_client_pending, gss_check_acceptable, gss_err, gss_try, gss_err. outer gss_cst bytes.
  inner gss_cst bytes.
Qed.
Lemma gss_server_code e : exists p : custom (gss_sst * unit), stands_for e p (fun t => XGssapiS (fst t)).
Proof.
  refine (code_stands e XGssapiS (gss_server_step e) _ _); [reflexivity|]. intros i.
  unfold gss_server_step, gss_server_pending, gss_server_installed, gss_err, gss_try, gss_err. outer gss_sst unit.
Qed.

Theorem every_coded e m : exists T (wrap : T -> mech) (p : custom T), (exists t, wrap t = m) /\ stands_for e p wrap.
Proof.
  destruct (builtin_coded e) as ([p1 H1] & [p2 H2] & [p3 H3] & [p4 H4] & [p5 H5] & [p6 H6] & [p7 H7] & [p8 H8] &
    [p9 H9] & [p10 H10] & [p11 H11] & [p12 H12]).
  destruct m as [| |l|l| | | | |l|l|l|l|a l|a l|l|l].
  - exists unit, (fun _ => XPlainC), p1. split; [exists tt; reflexivity|exact H1].
  - exists unit, (fun _ => XPlainS), p2. split; [exists tt; reflexivity|exact H2].
  - exists login_cst, XLoginC, p3. split; [exists l; reflexivity|exact H3].
  - exists login_sst, XLoginS, p4. split; [exists l; reflexivity|exact H4].
  - exists unit, (fun _ => XExternalC), p5. split; [exists tt; reflexivity|exact H5].
  - exists unit, (fun _ => XExternalS), p6. split; [exists tt; reflexivity|exact H6].
  - exists unit, (fun _ => XAnonymousC), p7. split; [exists tt; reflexivity|exact H7].
  - exists unit, (fun _ => XAnonymousS), p8. split; [exists tt; reflexivity|exact H8].
  - exists oauth_cst, XXOAuth2C, p9. split; [exists l; reflexivity|exact H9].
  - exists oauth_sst, XXOAuth2S, p10. split; [exists l; reflexivity|exact H10].
  - exists oauth_cst, XOAuthBearerC, p11. split; [exists l; reflexivity|exact H11].
  - exists oauth_sst, XOAuthBearerS, p12. split; [exists l; reflexivity|exact H12].
  - destruct (scram_client_code e a) as [p H]. exists (option scram_cst * cf_locals)%type, (fun t => XScramC a (fst t)), p. split; [exists (l, ([], None)); reflexivity|exact H].
  - destruct (scram_server_code e a) as [p H]. exists (option scram_sst * bytes)%type, (fun t => XScramS a (fst t)), p. split; [exists (l, []); reflexivity|exact H].
  - destruct (gss_client_code e) as [p H]. exists (gss_cst * bytes)%type, (fun t => XGssapiC (fst t)), p. split; [exists (l, []); reflexivity|exact H].
  - destruct (gss_server_code e) as [p H]. exists (gss_sst * unit)%type, (fun t => XGssapiS (fst t)), p. split; [exists (l, tt); reflexivity|exact H].
Qed.
