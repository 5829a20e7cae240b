(** Steps without data (C70) and exchanges between client and server (C71). *)
From Coq Require Import Lia.
From Verif Require Import Bytes Utf8 Types World WorldFacts MonadFacts Simple OAuth ScramParser Scram
  Gssapi Session Frame Registry Spec_Registry Spec_Order Spec_History Spec_Errors Spec_Talk Triple
  Proof_History Proof_Errors.
Open Scope m_scope.

(** ** Control flow *)

Definition after (m : mech) (input : option bytes) (st : state) (m' : mech) : Prop :=
  match m with
  | XPlainC | XExternalC | XAnonymousC => st = Finished true
  | XPlainS => st = Finished false /\ ~ no_data input
  | XExternalS | XAnonymousS => st = Finished false
  | XLoginC LcAuthid => st = Running /\ m' = XLoginC LcPassword
  | XLoginC LcPassword => st = Finished true
  | XLoginC LcDone => False
  | XLoginS LsNew => st = Running /\ m' = XLoginS LsUser
  | XLoginS LsUser => st = Running /\ exists u, m' = XLoginS (LsPass u)
  | XLoginS (LsPass _) => st = Finished false
  | XLoginS LsDone => False
  | XXOAuth2C OcInitial => st = Running /\ m' = XXOAuth2C OcWaiting
  | XOAuthBearerC OcInitial => st = Running /\ m' = XOAuthBearerC OcWaiting
  | XXOAuth2C OcWaiting | XOAuthBearerC OcWaiting =>
      st = Finished (match unwrap_or_empty input with [] => false | _ => true end)
  | XXOAuth2C OcDone | XOAuthBearerC OcDone => False
  | XXOAuth2S OsInitial =>
      ~ no_data input /\ (st = Finished false \/ st = Running /\ m' = XXOAuth2S OsErrored)
  | XOAuthBearerS OsInitial =>
      ~ no_data input /\ (st = Finished false \/ st = Running /\ m' = XOAuthBearerS OsErrored)
  | XXOAuth2S OsErrored | XOAuthBearerS OsErrored => st = Finished false
  | XScramC a (Some (ScInitial _)) => st = Running /\ exists x, m' = XScramC a (Some (ScClientFirst x))
  | XScramC a (Some (ScClientFirst _)) =>
      ~ no_data input /\ st = Running /\ exists x, m' = XScramC a (Some (ScServerFirst x))
  | XScramC a (Some (ScServerFirst _)) => ~ no_data input /\ st = Finished false
  | XScramS a (Some (SsClientFirst _)) =>
      ~ no_data input /\ st = Running /\ exists x, m' = XScramS a (Some (SsClientFinal x))
  | XScramS a (Some (SsClientFinal _)) => ~ no_data input /\ st = Finished true
  | XScramS _ (Some SsFinished) | XScramC _ None | XScramS _ None => False
  | XGssapiC _ | XGssapiS _ => True
  end.

(** From the state [l], success leads to [R]. *)
Definition leadsf {L A} (R : A -> L -> Prop) (m : M L A) (l : L) : Prop :=
  forall w a l1 w1, m l w = (Ok a, l1, w1) -> R a l1.
Lemma leadsf_getl {L A} R (f : L -> M L A) l : leadsf R (f l) l -> leadsf R (bind getl f) l.
Proof. intros H w a l1 w1 E. exact (H _ _ _ _ E). Qed.
Lemma leadsf_setl {L A} R x (f : unit -> M L A) l : leadsf R (f tt) x -> leadsf R (bind (setl x) f) l.
Proof. intros H w a l1 w1 E. exact (H _ _ _ _ E). Qed.
Lemma leadsf_ret {L A} (R : A -> L -> Prop) a l : R a l -> leadsf R (ret a) l.
Proof. intros H w b l2 w2 [= <- <- <-]. exact H. Qed.
Lemma leadsf_fail {L A} (R : A -> L -> Prop) x l : leadsf R (fail x) l.
Proof. intros w b l2 w2 [=]. Qed.
Lemma leadsf_panic {L A} (R : A -> L -> Prop) l : leadsf R panic l.
Proof. intros w b l2 w2 [=]. Qed.
Lemma leadsf_any {L A} (R : A -> L -> Prop) m l : leads R m -> leadsf R m l.
Proof. intros H w b l2 w2 E. exact (H _ _ _ _ _ E). Qed.
Lemma leads_setl {L A} R x (f : unit -> M L A) : leadsf R (f tt) x -> leads R (bind (setl x) f).
Proof. intros H l w a l1 w1 E. exact (H _ _ _ _ E). Qed.
Lemma leads_of_res {L A B} R (r : res serr A) (f : A -> M L B) :
  (forall a, r = Ok a -> leads R (f a)) -> leads R (bind (of_res r) f).
Proof.
  intros H l w a l1 w1 E. unfold bind, of_res in E. destruct r; try discriminate.
  exact (H _ eq_refl _ _ _ _ _ E).
Qed.

Lemma leads_scram_parse {L A B} R (r : res parseerr A) (f : A -> M L B) :
  (forall a, r = Ok a -> leads R (f a)) -> leads R (bind (scram_parse r) f).
Proof.
  intros H. apply leads_of_res. intros a E. apply H. destruct r; cbn in E; congruence.
Qed.
(** What a request yields, its consumer yielded. *)
Lemma leads_need {L A} (R : A -> L -> Prop) e q c (f : pval q -> M L A) :
  (forall v, leads R (f v)) -> leads R (need_with e q c f).
Proof.
  intros H l w a l1 w1 E. apply need_with_ok in E. destruct E as [v [cs1 [cs2 [w2 [_ [_ [E _]]]]]]].
  exact (H v _ _ _ _ _ E).
Qed.
Lemma leads_validated {L A} (R : A -> L -> Prop) e c (m : M L A) :
  leads R m -> leads R (bind m (fun a => bind (validate e c) (fun _ => ret a))).
Proof.
  intros H l w a l1 w1 E. apply bind_ok in E. destruct E as [b [l2 [w2 [E1 E2]]]].
  apply bind_ok in E2. destruct E2 as [u [l3 [w3 [E2 E3]]]]. injection E3 as <- <- <-.
  unfold validate in E2. destruct (run_validate _ _ _) as [[|] slot]; [discriminate|].
  injection E2 as _ <- _. exact (H _ _ _ _ _ E1).
Qed.
(** What has succeeded has been parsed. *)
Lemma bind_scram_parse {L A B} (r : res parseerr A) (f : A -> M L B) l w b l1 w1 :
  bind (scram_parse r) f l w = (Ok b, l1, w1) -> exists a, r = Ok a.
Proof.
  intros E. apply bind_ok in E. destruct E as [a [l2 [w2 [E _]]]].
  destruct r as [x|x|]; cbn in E; try discriminate. eauto.
Qed.

Ltac some_data := intros [?|[= ->]]; [discriminate|].

Lemma first_data e a s i (l : option scram_cst) w x l1 w1 :
  handle_server_first e a s i l w = (Ok x, l1, w1) -> ~ no_data (Some i).
Proof.
  intros E. apply bind_scram_parse in E. destruct E as [y E]. some_data. discriminate E.
Qed.
Lemma final_data e s i (l : option scram_cst) w x l1 w1 :
  handle_server_final e s i l w = (Ok x, l1, w1) -> ~ no_data (Some i).
Proof.
  intros E. apply bind_scram_parse in E. destruct E as [y E]. some_data. discriminate E.
Qed.
Lemma client_first_data e a plus i l w x l1 w1 :
  handle_client_first e a plus i l w = (Ok x, l1, w1) -> ~ no_data (Some i).
Proof.
  intros E. apply bind_scram_parse in E. destruct E as [y E]. some_data. discriminate E.
Qed.
Lemma client_final_data e a d i (l : option scram_sst) w x l1 w1 :
  handle_client_final e a d i l w = (Ok x, l1, w1) -> ~ no_data (Some i).
Proof.
  intros E. apply bind_scram_parse in E. destruct E as [y E]. some_data. discriminate E.
Qed.

Ltac go := lazymatch goal with
  | |- leads _ (bind (setl _) _) => apply leads_setl
  | |- leads _ (bind _ _) => apply leads_bind; intros ?
  | |- leads _ (ret _) => apply leads_ret; intros ?
  | |- leads _ (fail _) => apply leads_fail
  | |- leads _ panic => apply leads_panic
  | |- leads _ (match ?x with _ => _ end) => destruct x eqn:?
  | |- leadsf _ (bind getl _) _ => apply leadsf_getl; cbv beta iota
  | |- leadsf _ (bind (setl _) _) _ => apply leadsf_setl
  | |- leadsf _ (bind _ _) _ => apply leadsf_any
  | |- leadsf _ (ret _) _ => apply leadsf_ret
  | |- leadsf _ (fail _) _ => apply leadsf_fail
  | |- leadsf _ panic _ => apply leadsf_panic
  | |- leadsf _ (match ?x with _ => _ end) _ => destruct x eqn:?
  end.

Lemma leadsf_knowing {L A B} (R : B -> L -> Prop) (P : Prop) (m : M L A) f l :
  (forall w a l1 w1, m l w = (Ok a, l1, w1) -> P) -> (P -> leads R (bind m f)) ->
  leadsf R (bind m f) l.
Proof.
  intros H K w b l2 w2 E. assert (E1 := E). apply bind_ok in E1.
  destruct E1 as [a [l1 [w1 [E1 _]]]]. exact (K (H _ _ _ _ E1) _ _ _ _ _ E).
Qed.

Theorem step_after e s input script st out s' :
  step e s input script = (Ok st, out, s') -> after (s_mech s) input st (s_mech s').
Proof.
  unfold step, run. intros H.
  destruct (mech_step e input (s_mech s) _) as [[r m1] w1] eqn:E.
  injection H as -> <- <-. cbn [s_mech]. unfold mech_step in E. unfold bind at 1, getl at 1 in E.
  destruct (s_mech s) as [| |l|l| | | | |l|l|l|l|a l|a l|l|l]; unfold on in E; try exact I;
    match type of E with match ?m ?l ?w with _ => _ end = _ =>
      destruct (m l w) as [[r2 l2] w2] eqn:F; injection E as -> <- <- end.
  all: match goal with F : ?m ?l _ = (_, ?l2, _) |- ?P ?st (?wrap ?l2) =>
         assert (Q : leadsf (fun st l2 => P st (wrap l2)) m l); [clear F|exact (Q _ _ _ _ F)]
       | F : ?m ?l _ = (Ok ?st, _, _) |- ?P ?st ?m2 =>
         assert (Q : leadsf (fun st _ => P st m2) m l); [clear F|exact (Q _ _ _ _ F)] end.
  - unfold plain_client_step. repeat go. reflexivity.
  - unfold plain_server_step. repeat go.
    all: split; [reflexivity|]; some_data; discriminate.
  - unfold login_client_step. repeat go; cbn; auto.
  - unfold login_server_step. repeat go; cbn; eauto.
  - unfold external_client_step. repeat go. reflexivity.
  - unfold external_server_step. repeat go. reflexivity.
  - unfold anonymous_client_step. repeat go. reflexivity.
  - unfold anonymous_server_step. repeat go. reflexivity.
  - unfold xoauth2_client_step. repeat go; cbn; auto; rewrite Heqb; reflexivity.
  - unfold xoauth2_server_step. apply leadsf_getl. destruct l; [|repeat go; reflexivity].
    destruct input as [i|]; [|apply leadsf_fail]. apply leadsf_any, leads_of_res.
    intros [u t] P. apply leads_validated, leads_need. intros v. repeat go.
    all: split; [some_data; discriminate P|auto].
  - unfold oauthbearer_client_step. repeat go; cbn; auto; rewrite Heqb; reflexivity.
  - unfold oauthbearer_server_step. apply leadsf_getl. destruct l; [|repeat go; reflexivity].
    destruct input as [i|]; [|apply leadsf_fail]. apply leadsf_any, leads_of_res.
    intros msg P. apply leads_validated, leads_need. intros v. repeat go.
    all: split; [some_data; discriminate P|auto].
  - unfold scram_client_step. apply leadsf_getl, leadsf_setl. destruct l as [[plus|x|x]|].
    + apply leadsf_any. repeat go. cbn. eauto.
    + destruct input as [i|]; [|apply leadsf_fail].
      eapply leadsf_knowing; [intros; eapply first_data; eassumption|]. intros N. repeat go.
      cbn. eauto.
    + destruct input as [i|]; [|apply leadsf_fail].
      eapply leadsf_knowing; [intros; eapply final_data; eassumption|]. intros N. repeat go.
      cbn. eauto.
    + apply leadsf_panic.
  - unfold scram_server_step. apply leadsf_getl, leadsf_setl. destruct l as [[plus|d|]|].
    + destruct input as [i|]; [|apply leadsf_fail].
      eapply (leadsf_knowing _ (~ no_data (Some i))).
      { intros w x l1 w4 E. unfold locally in E.
        destruct (handle_client_first e a plus i [] w) as [[[y|y|] l3] w3] eqn:F; try discriminate.
        eapply client_first_data, F. }
      intros N. repeat go. cbn. eauto.
    + destruct input as [i|]; [|apply leadsf_fail].
      eapply leadsf_knowing; [intros; eapply client_final_data; eassumption|]. intros N. repeat go.
      cbn. eauto.
    + apply leadsf_fail.
    + apply leadsf_panic.
Qed.

(** ** Steps without data *)

Ltac fresh_case H :=
  let i := fresh "i" in let E := fresh "E" in
  match type of H with _ _ (Builtin (s_mech ?s)) => remember (Builtin (s_mech s)) as i eqn:E
                     | _ _ _ (Builtin (s_mech ?s)) => remember (Builtin (s_mech s)) as i eqn:E end;
  destruct H; try discriminate E; injection E as E.

Lemma awaits_data e reg sd m s input script st out s' :
  awaits e reg sd m s -> ~ is_login m -> m <> DGssapi -> no_data input ->
  step e s input script = (Ok st, out, s') ->
  st = Finished false /\ (forall a plus, m <> DScram a plus).
Proof.
  intros A NL NG N H. apply step_after in H. destruct A as [[B I]|U].
  - destruct sd; unfold begun in B; fresh_case B; rewrite <- E in H; cbn in *;
      try (destruct I; reflexivity); try (destruct NL; exact Logic.I); try congruence;
      try (split; [tauto|intros ? ? [=]]); tauto.
  - destruct U as [s0 [s1 [i1 [sc1 [o1 [B [O K]]]]]]].
    pose proof (ongoing_impl _ _ _ O) as J. apply step_after in K.
    destruct sd; unfold begun in B; fresh_case B; rewrite <- E in J; cbn in J;
      try (destruct NL; exact Logic.I); try congruence;
      destruct (s_mech s1) as [| |[]|[]| | | | |[]|[]|[]|[]|b [[]|]|b [[]|]|l|l];
      try contradiction; cbn in K;
      try discriminate; try contradiction; try (destruct K as [? K]; discriminate).
    all: repeat match goal with
      | K : _ /\ _ |- _ => destruct K
      | K : _ \/ _ |- _ => destruct K
      | K : exists _, _ |- _ => destruct K
      | K : s_mech _ = _ |- _ => rewrite K in H; clear K
      end; try discriminate; cbn in H;
      try tauto; destruct N as [-> | ->]; cbn in H; (split; [tauto|intros ? ? [=]]).
Qed.

Theorem empty_never_runs e reg sd m s input script out s' :
  awaits e reg sd m s -> ~ is_login m -> m <> DGssapi -> no_data input ->
  step e s input script <> (Ok Running, out, s').
Proof.
  intros A L G N H. destruct (awaits_data _ _ _ _ _ _ _ _ _ _ A L G N H). discriminate.
Qed.

Theorem scram_needs_data e reg sd a plus s input script st out s' :
  awaits e reg sd (DScram a plus) s -> no_data input ->
  step e s input script <> (Ok st, out, s').
Proof.
  intros A N H.
  destruct (awaits_data _ _ _ _ _ _ _ _ _ _ A (fun x => x)
    (fun x : DScram a plus = DGssapi => match x with end) N H) as [_ K].
  exact (K _ _ eq_refl).
Qed.

(** A session that is underway, by the mechanism it runs. *)
Lemma underway_states e reg sd m s :
  underway e reg sd m s -> ~ is_login m -> m <> DGssapi ->
  In (s_mech s) [XXOAuth2C OcWaiting; XOAuthBearerC OcWaiting; XXOAuth2S OsErrored;
                 XOAuthBearerS OsErrored] \/
  (exists a x, s_mech s = XScramC a (Some (ScClientFirst x))) \/
  (exists a x, s_mech s = XScramC a (Some (ScServerFirst x))) \/
  (exists a x, s_mech s = XScramS a (Some (SsClientFinal x))).
Proof.
  intros U NL NG. destruct U as [s0 [s1 [i1 [sc1 [o1 [B [O K]]]]]]].
  pose proof (ongoing_impl _ _ _ O) as J. apply step_after in K.
  destruct sd; unfold begun in B; fresh_case B; rewrite <- E in J; cbn in J;
    try (destruct NL; exact Logic.I); try congruence;
    destruct (s_mech s1) as [| |[]|[]| | | | |[]|[]|[]|[]|b [[]|]|b [[]|]|l|l];
    try contradiction; cbn in K;
    try discriminate; try contradiction; try (destruct K as [? K]; discriminate).
  all: repeat match goal with
    | K : _ /\ _ |- _ => destruct K
    | K : _ \/ _ |- _ => destruct K
    | K : exists _, _ |- _ => destruct K
    | K : s_mech _ = _ |- _ => rewrite K; clear K
    end; try discriminate; cbn; eauto 10.
Qed.

Theorem final_step_silent e reg sd m s script r out s' :
  underway e reg sd m s -> ~ is_login m -> m <> DGssapi ->
  step e s None script = (r, out, s') ->
  out = [] /\ (r = Ok (Finished false) \/ r = Err EInputDataRequired).
Proof.
  intros U L G H. unfold step, run in H.
  destruct (underway_states _ _ _ _ _ U L G)
    as [[K|[K|[K|[K|[]]]]]|[[a [x K]]|[[a [x K]]|[a [x K]]]]]; 
    try (symmetry in K; rename K into K'; assert (K := K'));
    rewrite K in H || rewrite <- K in H; cbn in H; injection H as <- <- <-; auto.
Qed.

(** ** Exchanges *)

(** Where both sides are, and whose turn it is. *)
Inductive stage : nat -> side -> mech -> mech -> Prop :=
| st_plain : stage 0 SClient XPlainC XPlainS
| st_external : stage 0 SClient XExternalC XExternalS
| st_anonymous : stage 0 SClient XAnonymousC XAnonymousS
| st_login0 : stage 0 SServer (XLoginC LcAuthid) (XLoginS LsNew)
| st_login1 : stage 1 SClient (XLoginC LcAuthid) (XLoginS LsUser)
| st_login2 : stage 2 SServer (XLoginC LcPassword) (XLoginS LsUser)
| st_login3 u : stage 3 SClient (XLoginC LcPassword) (XLoginS (LsPass u))
| st_xoauth0 : stage 0 SClient (XXOAuth2C OcInitial) (XXOAuth2S OsInitial)
| st_xoauth1 : stage 1 SServer (XXOAuth2C OcWaiting) (XXOAuth2S OsInitial)
| st_xoauth2 : stage 2 SClient (XXOAuth2C OcWaiting) (XXOAuth2S OsErrored)
| st_bearer0 : stage 0 SClient (XOAuthBearerC OcInitial) (XOAuthBearerS OsInitial)
| st_bearer1 : stage 1 SServer (XOAuthBearerC OcWaiting) (XOAuthBearerS OsInitial)
| st_bearer2 : stage 2 SClient (XOAuthBearerC OcWaiting) (XOAuthBearerS OsErrored)
| st_scram0 a p q : stage 0 SClient (XScramC a (Some (ScInitial p))) (XScramS a (Some (SsClientFirst q)))
| st_scram1 a x q : stage 1 SServer (XScramC a (Some (ScClientFirst x))) (XScramS a (Some (SsClientFirst q)))
| st_scram2 a x d : stage 2 SClient (XScramC a (Some (ScClientFirst x))) (XScramS a (Some (SsClientFinal d)))
| st_scram3 a y d : stage 3 SServer (XScramC a (Some (ScServerFirst y))) (XScramS a (Some (SsClientFinal d))).

Lemma start_stage reg m c s :
  m <> DGssapi -> begun reg SClient m c -> begun reg SServer m s ->
  stage 0 (initiator m) (s_mech c) (s_mech s).
Proof.
  intros G C S. unfold begun in C, S. 
  inversion C; subst; inversion S; subst; try congruence; constructor.
Qed.

Lemma talk_stage ec es reg m c0 s0 n sd i c s :
  m <> DGssapi -> begun reg SClient m c0 -> begun reg SServer m s0 ->
  talk ec es m c0 s0 n sd i c s -> stage n sd (s_mech c) (s_mech s).
Proof.
  intros G C S T. induction T as [|n i c s sc out c' T IH H|n i c s sc out s' T IH H].
  - eapply start_stage; eassumption.
  - apply step_after in H. inversion IH; subst;
      match goal with K : _ = s_mech c |- _ => rewrite <- K in H end; cbn in H;
      repeat match goal with
      | K : _ /\ _ |- _ => destruct K
      | K : _ \/ _ |- _ => destruct K
      | K : exists _, _ |- _ => destruct K
      | K : s_mech _ = _ |- _ => rewrite K; clear K
      end; try discriminate; constructor.
  - apply step_after in H. inversion IH; subst;
      match goal with K : _ = s_mech s |- _ => rewrite <- K in H end; cbn in H;
      repeat match goal with
      | K : _ /\ _ |- _ => destruct K
      | K : _ \/ _ |- _ => destruct K
      | K : exists _, _ |- _ => destruct K
      | K : s_mech _ = _ |- _ => rewrite K; clear K
      end; try discriminate; constructor.
Qed.

Theorem talk_bounded ec es reg m c0 s0 n sd i c s :
  m <> DGssapi -> begun reg SClient m c0 -> begun reg SServer m s0 ->
  talk ec es m c0 s0 n sd i c s -> n <= 3.
Proof. intros G C S T. pose proof (talk_stage _ _ _ _ _ _ _ _ _ _ _ G C S T) as K.
  destruct K; lia. Qed.

Theorem talk_last_message ec es reg m c0 s0 n sd i c s script out x script2 st out2 y :
  m <> DGssapi -> begun reg SClient m c0 -> begun reg SServer m s0 ->
  talk ec es m c0 s0 n sd i c s ->
  moves ec es sd c s i script = (Ok (Finished true), out, x) ->
  replies ec es sd c s (Some out) script2 = (Ok st, out2, y) -> st = Finished false.
Proof.
  intros G C S T H K. pose proof (talk_stage _ _ _ _ _ _ _ _ _ _ _ G C S T) as Q.
  destruct sd; cbn in H, K; apply step_after in H; apply step_after in K;
    inversion Q; subst;
    match goal with E : _ = s_mech c |- _ => rewrite <- E in * end;
    match goal with E : _ = s_mech s |- _ => rewrite <- E in * end; cbn in H, K;
    intuition discriminate.
Qed.

Theorem talk_silent_end ec es reg m c0 s0 n sd i c s script out x script2 :
  m <> DGssapi -> begun reg SClient m c0 -> begun reg SServer m s0 ->
  talk ec es m c0 s0 n sd i c s ->
  moves ec es sd c s i script = (Ok (Finished false), out, x) ->
  exists y, replies ec es sd c s None script2 = (Ok (Finished false), [], y).
Proof.
  intros G C S T H. pose proof (talk_stage _ _ _ _ _ _ _ _ _ _ _ G C S T) as Q.
  destruct sd; cbn in H |- *; apply step_after in H;
    inversion Q as [| | | | | | | | | | | | | | | |]; subst;
    match goal with E : _ = s_mech c |- _ => rename E into Ec end;
    match goal with E : _ = s_mech s |- _ => rename E into Es end;
    (rewrite <- Ec in H || rewrite <- Es in H); cbn in H;
    try (exfalso; intuition discriminate);
    unfold step, run; (rewrite <- Ec || rewrite <- Es); cbn; eexists; reflexivity.
Qed.

(** ** Nothing is written if no message is to be sent *)

Definition mute (w w' : world) : Prop := w_out w' = w_out w.
Lemma mute_frame : frame mute.
Proof. split; unfold mute; congruence. Qed.
Lemma mute_admits ev : admits mute ev.
Proof. intros w. reflexivity. Qed.
Lemma mute_asks q : asks mute q.
Proof. split; [|split]; intros; apply mute_admits. Qed.
Lemma keeps_mute_validate {L} e c : keeps mute (@validate L e c).
Proof.
  intros l w. unfold validate. destruct (run_validate _ _ _) as [[|] slot]; reflexivity.
Qed.
Lemma keeps_mute_action {L} e q c v : keeps mute (@action L e q c v).
Proof.
  intros l w. unfold action. destruct (run_action _ _ _ _) as [[r slot] tr].
  destruct (mask_early r); [reflexivity|]. destruct slot; reflexivity.
Qed.

(** If [m] finishes without a message, it has written nothing. *)
Definition silent {L} (m : M L state) : Prop :=
  forall l w l1 w1, m l w = (Ok (Finished false), l1, w1) -> mute w w1.
Lemma silent_keeps {L} (m : M L state) : keeps mute m -> silent m.
Proof. intros H l w l1 w1 E. specialize (H l w). rewrite E in H. exact H. Qed.
Lemma silent_bind {L A} (m : M L A) f : keeps mute m -> (forall a, silent (f a)) -> silent (bind m f).
Proof.
  intros H K l w l1 w1 E. apply bind_ok in E. destruct E as [a [l2 [w2 [E1 E2]]]].
  specialize (H l w). rewrite E1 in H. unfold mute in *. rewrite (K _ _ _ _ _ E2). exact H.
Qed.
Lemma silent_not {L} (m : M L state) : leads (fun st _ => st <> Finished false) m -> silent m.
Proof. intros H l w l1 w1 E. destruct (H _ _ _ _ _ E eq_refl). Qed.
Lemma silent_need {L} e q c (f : pval q -> M L state) :
  (forall v, silent (f v)) -> silent (need_with e q c f).
Proof.
  intros H l w l1 w1 E. apply need_with_ok in E. destruct E as [v [cs1 [cs2 [w2 [_ [_ [E ->]]]]]]].
  exact (H _ _ _ _ _ E).
Qed.
Lemma silent_validated {L} e c (m : M L state) :
  silent m -> silent (bind m (fun a => bind (validate e c) (fun _ => ret a))).
Proof.
  intros H l w l1 w1 E. apply bind_ok in E. destruct E as [b [l2 [w2 [E1 E2]]]].
  apply bind_ok in E2. destruct E2 as [u [l3 [w3 [E2 E3]]]]. injection E3 as -> <- <-.
  pose proof (keeps_mute_validate e c l2 w2) as K. rewrite E2 in K.
  unfold mute in *. rewrite K. exact (H _ _ _ _ E1).
Qed.

Ltac hush := lazymatch goal with
  | |- silent (bind (setl _) _) => apply silent_bind; [apply (keeps_setl _ mute_frame)|intros ?]
  | |- silent (bind getl _) => apply silent_bind; [apply (keeps_getl _ mute_frame)|intros ?]
  | |- silent (bind (gss_try _) _) =>
      apply silent_bind; [unfold gss_try, gss_err; match goal with |- keeps _ (match ?o with _ => _ end) => destruct o end;
        [apply (keeps_ret _ mute_frame)|apply (keeps_fail _ mute_frame)]|intros ?]
  | |- silent (bind (validate _ _) _) => apply silent_bind; [apply keeps_mute_validate|intros ?]
  | |- silent (bind (action _ _ _ _) _) => apply silent_bind; [apply keeps_mute_action|intros ?]
  | |- silent (bind (of_res _) _) => apply silent_bind; [apply (keeps_of_res _ mute_frame)|intros ?]
  | |- silent (fail _) => apply silent_keeps, (keeps_fail _ mute_frame)
  | |- silent panic => apply silent_keeps, (keeps_panic _ mute_frame)
  | |- silent (ret _) => apply silent_keeps, (keeps_ret _ mute_frame)
  | |- silent (match ?x with _ => _ end) => destruct x eqn:?
  end.
Ltac busy := apply silent_not; repeat (lazymatch goal with
  | |- leads _ (bind (setl _) (fun _ => ret _)) => apply leads_end; discriminate
  | |- leads _ (bind _ _) => apply leads_bind; intros ?
  | |- leads _ (ret _) => apply leads_ret; intros ?; discriminate
  | |- leads _ (fail _) => apply leads_fail
  | |- leads _ panic => apply leads_panic
  | |- leads _ (match ?x with _ => _ end) => destruct x
  end).

Lemma keeps_mute_final {L} e x i : keeps mute (@handle_server_final L e x i).
Proof.
  unfold handle_server_final. apply keeps_bind; [exact mute_frame|apply keeps_of_res, mute_frame|].
  intros [v|v]; [|apply keeps_fail, mute_frame].
  destruct (Base64.decode v); [|apply keeps_fail, mute_frame].
  destruct (bytes_eqb _ _); [|apply keeps_fail, mute_frame].
  apply keeps_ignore, keeps_mute_action. 
Qed.

Theorem no_message_no_bytes e s input script out s' :
  step e s input script = (Ok (Finished false), out, s') -> out = [].
Proof.
  unfold step, run. intros H.
  assert (Q : silent (mech_step e input)).
  2:{ destruct (mech_step e input (s_mech s) _) as [[r m1] w1] eqn:E.
      injection H as -> <- <-. apply Q in E. exact E. }
  clear. unfold mech_step. hush.
  assert (O : forall L (wrap : L -> mech) l m, silent m -> silent (on wrap l m)).
  { intros L wrap l m K l0 w l1 w1 E. unfold on in E. destruct (m l w) as [[r l2] w2] eqn:F.
    injection E as -> <- <-. exact (K _ _ _ _ F). }
  destruct a as [| |l|l| | | | |l|l|l|l|a l|a l|l|l]; apply O; clear O.
  - unfold plain_client_step. busy.
  - unfold plain_server_step. repeat hush.
  - unfold login_client_step. busy.
  - unfold login_server_step. hush. hush; try solve [busy]; repeat hush.
  - unfold external_client_step. busy.
  - unfold external_server_step. repeat hush.
  - unfold anonymous_client_step. busy.
  - unfold anonymous_server_step. repeat hush.
  - unfold xoauth2_client_step. hush. hush; [busy|repeat hush|repeat hush].
  - unfold xoauth2_server_step. hush. hush; [|repeat hush].
    hush; [|repeat hush]. hush. destruct a0. apply silent_validated, silent_need.
    intros [v|]; [busy|repeat hush].
  - unfold oauthbearer_client_step. hush. hush; [busy|repeat hush|repeat hush].
  - unfold oauthbearer_server_step. hush. hush; [|repeat hush].
    hush; [|repeat hush]. hush. apply silent_validated, silent_need.
    intros [v|]; [busy|repeat hush].
  - unfold scram_client_step. hush. hush. hush; [|repeat hush]. hush; [busy|busy|].
    hush; [|repeat hush]. apply silent_bind; [apply keeps_mute_final|intros _]. repeat hush.
  - unfold scram_server_step. busy.
  - unfold gss_client_step, gss_client_pending. busy.
  - unfold gss_server_step. hush. hush. hush; try solve [repeat hush].
    + unfold gss_server_pending, gss_server_installed, gss_err. busy.
    + unfold gss_server_pending, gss_server_installed, gss_err. busy.
    + unfold gss_server_pending, gss_server_installed, gss_err. busy.
Qed.
