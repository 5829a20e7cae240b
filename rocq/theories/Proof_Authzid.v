(** Lemmas for C125. *)
From Verif Require Import Bytes BytesFacts Utf8 Types World CallbackSpec WorldFacts MonadFacts Simple OAuth ScramParser
  Scram Session Frame Registry Apps Interop Calm Spec_Simple Spec_OAuth Spec_Scram Spec_Registry Spec_Order Spec_Creds Spec_Authzid
  Proof_Simple Proof_OAuth Proof_Scram Proof_ScramRun Proof_ScramPanic Proof_ScramMain Proof_Early Proof_Order Proof_Creds.
Open Scope m_scope.

Lemma flag_hushed e plus : keeps Proof_Early.quiet (client_cbflag e plus).
Proof. unfold client_cbflag, push_gs2, set_cbdata. destruct plus; hushed. Qed.

Theorem scram_empty_fails e s a plus input script r out s' :
  s_mech s = XScramC a (Some (ScInitial plus)) -> provides e PAuthzId [] ->
  step e s input script = (r, out, s') -> out = [] /\ (exists x, r = Err x) /\
    (plus <> Supported -> r = Err (EMech (MSaslName SnEmpty))).
Proof.
  intros Em Hz H. apply run_ok in H. destruct H as [m' [w' [H [-> ->]]]]. rewrite Em in H.
  unfold mech_step, bind at 1, getl in H. apply on_eq in H. destruct H as [l' [H _]].
  unfold scram_client_step, bind at 1, getl, bind at 1, setl, bind at 1, locally in H.
  pose proof (client_first_calm e plus ([], None) (mk_world [] script (s_trace s) (s_rng s) (s_val s))) as C.
  rewrite send_client_first_eq in *. unfold bind at 1 in H. unfold bind at 1 in C.
  assert (P : plus <> Supported -> exists u l2 w2, client_cbflag e plus ([], None) (mk_world [] script (s_trace s) (s_rng s) (s_val s)) = (Ok u, l2, w2)).
  { intros N. destruct plus; try contradiction; repeat eexists; apply push_ok. }
  pose proof (flag_hushed e plus ([], None) (mk_world [] script (s_trace s) (s_rng s) (s_val s))) as Q.
  destruct (client_cbflag e plus _ _) as [[[u|x|] l1] w1]; cbn [fst snd] in *.
  - unfold bind at 1 in H. unfold bind at 1 in C. rewrite push_ok in *. unfold bind at 1 in H.
    destruct (maybe_need_with_provides e PAuthzId [] empty_provider authzid_consumer
      (fst l1 ++ lit ",", snd l1) w1 Hz) as [cs [_ E]].
    rewrite E in H. rewrite authzid_consumer_eq in H. cbn in H. injection H as <- _ <-.
    split; [apply Q|split; [eauto|reflexivity]].
  - injection H as <- _ <-. split; [apply Q|split; [eauto|]]. intros N. destruct (P N) as (u & l2 & w2 & K). discriminate K.
  - destruct C. reflexivity.
Qed.

(** [m] goes through on a willing writer and writes [out]. *)
Definition sends {L A} (m : M L A) (l : L) (a : A) (l1 : L) (out : bytes) : Prop := forall w,
  w_script w = [] -> exists w1, m l w = (Ok a, l1, w1) /\ w_out w1 = w_out w ++ out /\ w_script w1 = [].
Lemma sends_bind {L A B} (m : M L A) (f : A -> M L B) l a l1 o1 b l2 o2 :
  sends m l a l1 o1 -> sends (f a) l1 b l2 o2 -> sends (bind m f) l b l2 (o1 ++ o2).
Proof.
  intros H1 H2 w S. destruct (H1 w S) as (w1 & E1 & O1 & S1). destruct (H2 w1 S1) as (w2 & E2 & O2 & S2).
  exists w2. unfold bind. rewrite E1, E2, O2, O1, app_assoc. auto.
Qed.
Lemma sends_write {L} x (l : L) : sends (write_all x) l tt l x.
Proof. intros w S. rewrite write_all_full by exact S. eexists. split; [reflexivity|split; [reflexivity|exact S]]. Qed.
Lemma sends_vectored {L} bufs (l : L) : sends (write_all_vectored bufs) l (length (concat bufs)) l (concat bufs).
Proof. intros w S. rewrite write_all_vectored_full by exact S. eexists. split; [reflexivity|split; [reflexivity|exact S]]. Qed.
Lemma sends_maybe {L G} e q o c (f : pval q -> M L G) l g l1 out :
  answers_with e q o ->
  match o with Some v => g <> None /\ forall y, g = Some y -> sends (f v) l y l1 out | None => g = None /\ l1 = l /\ out = [] end ->
  sends (maybe_need_with e q c f) l g l1 out.
Proof.
  intros Ha Hf w S. destruct o as [v|]; cbn [answers_with] in Ha.
  - destruct Hf as [N Hf]. destruct g as [g|]; [|congruence]. specialize (Hf g eq_refl).
    destruct (maybe_need_with_provides e q v c f l w Ha) as [cs [_ E]].
    destruct (Hf (add_events (EvRequest q c :: cs ++ [EvAnswer q v]) w) S) as (w1 & E1 & O1 & S1).
    rewrite E, E1. exists w1. auto.
  - destruct Hf as [-> [-> ->]]. destruct (maybe_need_with_withholds e q c f l w Ha) as [cs [_ E]].
    rewrite E. eexists. split; [reflexivity|]. split; [symmetry; apply app_nil_r|exact S].
Qed.
Lemma sends_need {L G} e q v c (f : pval q -> M L G) l g l1 out :
  provides e q v -> sends (f v) l g l1 out -> sends (need_with e q c f) l g l1 out.
Proof.
  intros Hp Hf. rewrite <- (app_nil_r out). unfold need_with.
  apply sends_bind with (a := Some g) (l1 := l1).
  - apply (sends_maybe e q (Some v)); [exact Hp|]. split; [discriminate|]. intros y [= <-]. exact Hf.
  - intros w S. eexists. split; [reflexivity|]. split; [symmetry; apply app_nil_r|exact S].
Qed.
Lemma sends_kv {L} kv (l : L) : sends (ob_write_kv kv) l tt l (concat (map kv_text kv)).
Proof.
  induction kv as [|[k v] kv IH]; cbn [ob_write_kv map concat].
  - intros w S. eexists. split; [reflexivity|]. split; [symmetry; apply app_nil_r|exact S].
  - eapply sends_bind; [|exact IH].
    replace (kv_text (k, v)) with (concat [[soh]; k; [equals]; v]); [apply sends_vectored|].
    cbn [concat]. rewrite app_nil_r. reflexivity.
Qed.

Theorem oauthbearer_client_complete e s input o kv t :
  s_mech s = XOAuthBearerC OcInitial ->
  answers_with e PAuthzId o -> answers_with e POAuthBearerKV kv -> provides e POAuthBearerToken t ->
  exists s', step e s input [] =
    (Ok Running, oauthbearer_message o (match kv with Some l => l | None => [] end) t, s').
Proof.
  intros Hm Hz Hk Ht.
  assert (S : sends (oauthbearer_client_step e input) OcInitial Running OcWaiting
    (oauthbearer_message o (match kv with Some l => l | None => [] end) t)).
  { unfold oauthbearer_client_step, oauthbearer_message.
    apply (sends_bind getl _ OcInitial OcInitial OcInitial []).
    { intros w E. eexists. split; [reflexivity|]. split; [symmetry; apply app_nil_r|exact E]. }
    refine (sends_bind _ _ _ tt OcInitial (lit "n,") _ _ _ (sends_write _ _) _).
    apply (sends_bind _ _ _ (match o with Some _ => Some tt | None => None end) OcInitial).
    { apply (sends_maybe e PAuthzId o); [exact Hz|]. destruct o as [z|]; auto. split; [discriminate|].
      intros [] _. exact (sends_bind _ _ _ tt OcInitial (lit "a=") _ _ _ (sends_write _ _) (sends_write _ _)). }
    refine (sends_bind _ _ _ tt OcInitial (lit ",") _ _ _ (sends_write _ _) _).
    apply (sends_bind _ _ _ (match kv with Some _ => Some tt | None => None end) OcInitial).
    { apply (sends_maybe e POAuthBearerKV kv); [exact Hk|]. destruct kv as [z|]; auto. split; [discriminate|].
      intros [] _. apply sends_kv. }
    rewrite <- (app_nil_r (chr 1 :: _)).
    apply (sends_bind _ _ _ tt OcInitial).
    { apply (sends_need e POAuthBearerToken t); [exact Ht|].
      rewrite <- (app_nil_r (chr 1 :: _)). eapply sends_bind.
      - replace (chr 1 :: _) with (concat [xo_auth; t; soh2]); [apply sends_vectored|].
        cbn [concat]. rewrite app_nil_r. reflexivity.
      - intros w E. eexists. split; [reflexivity|]. split; [symmetry; apply app_nil_r|exact E]. }
    intros w E. eexists. split; [reflexivity|]. split; [symmetry; apply app_nil_r|exact E]. }
  unfold step, run, mech_step. rewrite Hm. unfold bind, getl, on.
  destruct (S (mk_world [] [] (s_trace s) (s_rng s) (s_val s)) eq_refl) as (w1 & E & O & _).
  rewrite E. rewrite O. eexists. reflexivity.
Qed.

(** The configuration of SASLConfig::with_credentials with the authorization identity Some(""). *)
Theorem credentials_empty e a p offered m mc :
  client_start (ap_registry (credentials_client (Some []) a p)) false default_prefer offered = Ok (Builtin mc, m) ->
  m <> DPlain ->
  forall input script r out s',
  step (session_env e (credentials_client (Some []) a p) SClient m) (new_session mc) input script = (r, out, s') ->
  out = [] /\ r = Err (EMech (MSaslName SnEmpty)).
Proof.
  intros C N input script r out s' H.
  pose proof (credentials_choice true offered) as K.
  change (ap_registry (credentials_client (Some []) a p)) with (credentials_registry true) in C.
  rewrite C in K. destruct K as (_ & Fr & l1 & l2 & El & _).
  assert (I : In m (credentials_order true)) by (rewrite El; apply in_elt).
  assert (P : provides (session_env e (credentials_client (Some []) a p) SClient m) PAuthzId [])
    by exact (env_authzid e (Some []) a p m).
  cbn [credentials_order In] in I.
  assert (exists g st, mc = XScramC g (Some (ScInitial st)) /\ st <> Supported) as (g & st & -> & Hs).
  { destruct I as [<-|[<-|[<-|[<-|[]]]]]; [..|congruence]; inversion Fr; subst; eauto. }
  destruct (scram_empty_fails _ (new_session _) g st _ _ _ _ _ eq_refl P H) as (O & _ & E).
  split; [exact O|exact (E Hs)].
Qed.

(** * Servers *)

Theorem scram_server_identity e s a plus m f two z user cn t script r out s' :
  s_mech s = XScramS a (Some (SsClientFirst plus)) -> client_first_fields m f two z user cn t ->
  step e s (Some m) script = (r, out, s') ->
  exists evs, new_events s s' evs /\ contexts_name evs user z.
Proof.
  intros Em Hf H. apply fields_parse in Hf. exact (server_first_contexts _ _ _ _ _ _ _ _ _ _ Em Hf H).
Qed.
