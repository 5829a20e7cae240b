(** Servers hand only UTF-8 text to the application (C66). *)
From Coq Require Import Lia.
From Verif Require Import Bytes Utf8 Types World CallbackSpec WorldFacts MonadFacts Simple OAuth
  ScramParser Scram Gssapi Session Registry Frame Local Spec_Simple Spec_Wire Spec_History
  Spec_Registry Proof_Utf8 Proof_Registry Proof_Recover.
Open Scope m_scope.

(** What may be observed. *)
Definition text_event (ev : event) : Prop :=
  match ev with
  | EvRequest _ c | EvAction _ _ c | EvValidate c => textual c
  | EvChan n => utf8_text n
  | _ => True
  end.
Definition tfits (w w' : world) : Prop :=
  exists evs, w_trace w' = w_trace w ++ evs /\ Forall text_event evs.

Lemma tfits_frame : frame tfits.
Proof.
  split.
  - intros w. exists []. rewrite app_nil_r. split; [reflexivity|constructor].
  - intros a b c [x [E Hx]] [y [K Hy]]. exists (x ++ y).
    split; [rewrite K, E, app_assoc; reflexivity|]. apply Forall_app. auto.
Qed.
Lemma tfits_admits ev : text_event ev -> admits tfits ev.
Proof. intros H w. exists [ev]. split; [reflexivity|]. constructor; [exact H|constructor]. Qed.
Lemma tfits_writes : writes tfits.
Proof.
  intros p w w' H. exists []. rewrite app_nil_r. split; [apply (wrote_trace _ _ _ H)|constructor].
Qed.
Lemma tfits_draws : draws_ok tfits.
Proof. intros w. exists []. cbn. rewrite app_nil_r. split; [reflexivity|constructor]. Qed.
Lemma tfits_validate {L} e c : textual c -> keeps tfits (@validate L e c).
Proof.
  intros H l w. unfold validate. destruct (run_validate _ _ _) as [[x|] slot];
    exists [EvValidate c]; (split; [reflexivity|]); (constructor; [exact H|constructor]).
Qed.
Lemma tfits_maybe_need_with {L G} e q c (f : pval q -> M L G) :
  textual c -> (forall v, keeps tfits (f v)) -> keeps tfits (maybe_need_with e q c f).
Proof.
  intros Hc Hf. pose proof tfits_frame as F. intros l w. unfold maybe_need_with.
  rewrite add_event_events.
  assert (K : forall p st l w, match run_satisfy q f p st l w with (_, _, _, w') => tfits w w' end).
  { intros p st l0 w0. apply (keeps_run_satisfy_at _ F);
      [apply tfits_admits; exact I|intros v; apply tfits_admits; exact I|exact Hf]. }
  specialize (K (e_cb e (w_trace w) (e_sd e) c (RSatisfy q)) CrOpen l (add_events [EvRequest q c] w)).
  destruct (run_satisfy _ _ _ _ _ _) as [[[r st] l1] w1].
  assert (R : tfits w w1).
  { eapply fr_trans; [exact F| |exact K]. apply tfits_admits. exact Hc. }
  destruct r as [r|x|]; [destruct (mask_early r) as [x|]; [destruct x|]|..]; exact R.
Qed.
Lemma tfits_need_with {L G} e q c (f : pval q -> M L G) :
  textual c -> (forall v, keeps tfits (f v)) -> keeps tfits (need_with e q c f).
Proof.
  intros Hc Hf. unfold need_with. apply (keeps_bind _ tfits_frame);
    [apply tfits_maybe_need_with; assumption|].
  intros [g|]; [apply (keeps_ret _ tfits_frame)|apply (keeps_fail _ tfits_frame)].
Qed.
Lemma tfits_need_cb_data {L G} e name c (f : bytes -> M L G) :
  textual c -> utf8_text name -> (forall v, keeps tfits (f v)) ->
  keeps tfits (need_cb_data e name c f).
Proof.
  intros Hc Hn Hf. pose proof tfits_frame as F. unfold need_cb_data, maybe_need_cb_data.
  apply (keeps_bind _ F); [|intros [g|]; [apply (keeps_ret _ F)|apply (keeps_fail _ F)]].
  apply (keeps_bind _ F); [apply keeps_log; apply tfits_admits; exact Hn|].
  intros _. destruct (e_chan e name).
  - apply (keeps_bind _ F); [apply Hf|]. intros; apply (keeps_ret _ F).
  - apply tfits_maybe_need_with; assumption.
Qed.
Lemma keeps_of_res_bind {L A B} W (F : frame W) (r : res serr A) (f : A -> M L B) :
  (forall a, r = Ok a -> keeps W (f a)) -> keeps W (bind (of_res r) f).
Proof.
  intros H l w. unfold bind, of_res. destruct r as [a|x|]; [apply H; reflexivity|apply F..].
Qed.

Lemma from_utf8_text x y : from_utf8 x = Some y -> utf8_text y.
Proof.
  unfold from_utf8. destruct (utf8_valid x) eqn:E; [|discriminate]. intros [= <-].
  apply utf8_exact. exact E.
Qed.
Lemma empty_textual : textual empty_provider.
Proof. refine (conj _ (conj _ (conj _ (conj _ _)))); intros; discriminate. Qed.

Ltac tex := refine (conj _ (conj _ (conj _ (conj _ _)))); intros; cbn in *; try discriminate;
  repeat match goal with
  | H : Some _ = Some _ |- _ => injection H as H; subst
  end; eauto using from_utf8_text.

(** Parsers return text. *)
Lemma xoauth2_text input a t : xoauth2_parse input = Ok (a, t) -> utf8_text a /\ utf8_text t.
Proof.
  unfold xoauth2_parse. intros H.
  repeat match type of H with
  | context [from_utf8 ?x] =>
      destruct (from_utf8 x) eqn:?; try discriminate
  | context [match ?x with _ => _ end] => destruct x eqn:?; try discriminate
  end; injection H as <- <-; split; eauto using from_utf8_text.
Qed.
Lemma ob_fields_text parts : forall tok fs tok' fs',
  ob_fields parts tok fs = Ok (tok', fs') ->
  (forall t, tok = Some t -> utf8_text t) -> (forall k v, In (k, v) fs -> utf8_text k /\ utf8_text v) ->
  (forall t, tok' = Some t -> utf8_text t) /\ (forall k v, In (k, v) fs' -> utf8_text k /\ utf8_text v).
Proof.
  induction parts as [|p r IH]; intros tok fs tok' fs' H Ht Hf.
  - cbn in H. injection H as <- <-. auto.
  - cbn [ob_fields] in H. unfold utf8_or in H.
    destruct (strip_prefix _ p) as [t|].
    + destruct (from_utf8 t) as [t'|] eqn:E; [|discriminate].
      apply (IH _ _ _ _ H); [|exact Hf]. intros x [= <-]. eauto using from_utf8_text.
    + destruct (split is_equals p) as [|k [|v [|? ?]]]; try discriminate.
      destruct (from_utf8 k) as [k'|] eqn:E1; [|discriminate].
      destruct (from_utf8 v) as [v'|] eqn:E2; [|discriminate].
      apply (IH _ _ _ _ H); [exact Ht|]. intros x y Hin. apply in_app_iff in Hin.
      destruct Hin as [Hin|[[= <- <-]|[]]]; [auto|]. split; eauto using from_utf8_text.
Qed.
Lemma ob_text input m : ob_parse input = Ok m ->
  (forall z, om_authzid m = Some z -> utf8_text z) /\ utf8_text (om_token m) /\
  (forall k v, In (k, v) (om_fields m) -> utf8_text k /\ utf8_text v).
Proof.
  unfold ob_parse. intros H.
  destruct (strip_suffix soh2 input); [|discriminate].
  destruct (split is_soh b) as [|g it]; [discriminate|].
  destruct (split is_comma g) as [|fs rest]; [discriminate|].
  destruct (negb _); [discriminate|]. destruct rest as [|za rest]; [discriminate|].
  match type of H with rbind ?x _ = _ => destruct x as [z|x1|] eqn:Ez end;
    cbn [rbind] in H; try discriminate.
  assert (Hz : forall y, z = Some y -> utf8_text y).
  { intros y ->. destruct za as [|c za]; [discriminate|].
    destruct (strip_prefix _ _) as [rem|]; [|discriminate]. unfold utf8_or in Ez.
    destruct (from_utf8 rem) eqn:E; [|discriminate]. injection Ez as <-.
    eauto using from_utf8_text. }
  destruct (ob_fields it None []) as [[t fl]|x1|] eqn:Ef; cbn [rbind] in H; try discriminate.
  cbn [fst snd] in H. destruct t as [t|]; [|discriminate]. injection H as <-. cbn.
  destruct (ob_fields_text _ _ _ _ _ Ef) as [K1 K2]; [discriminate|intros ? ? []|].
  split; [exact Hz|]. split; [apply K1; reflexivity|exact K2].
Qed.
Lemma cbname_text name : find (fun b => negb (cbname_char b)) name = None -> utf8_text name.
Proof.
  intros H. apply utf8_exact. induction name as [|b r IH]; [reflexivity|]. cbn [find] in H.
  destruct (cbname_char b) eqn:E; cbn [negb] in H; [|discriminate]. cbn [utf8_valid].
  replace (in_range 0 127 b) with true; [apply IH; exact H|]. symmetry.
  revert E. unfold cbname_char. destruct b as [[] [] [] [] [] [] [] []]; vm_compute; auto.
Qed.
Lemma client_first_text input cf : client_first_parse input = Ok cf ->
  utf8_text (cf_username cf) /\ (forall z, cf_authzid cf = Some z -> utf8_text z) /\
  (forall n, cf_cbflag cf = CbUsed n -> utf8_text n).
Proof.
  unfold client_first_parse, next_part. intros H.
  destruct (split is_comma input) as [|f1 it]; [discriminate|].
  destruct (cbflag_parse f1) as [flag|x1|] eqn:Ec; cbn [rbind] in H; try discriminate.
  destruct it as [|za it]; [discriminate|].
  match type of H with rbind ?x _ = _ => destruct x as [z|x1|] eqn:Ez end;
    cbn [rbind] in H; try discriminate.
  destruct it as [|n1 it]; [discriminate|].
  destruct (slice2 n1) as [hr|x1|]; cbn [rbind] in H; try discriminate.
  destruct (bytes_eqb (fst hr) _); [discriminate|].
  unfold expect_attr at 1 in H. destruct (slice2 n1) as [hr1|x1|]; cbn [rbind] in H; try discriminate.
  destruct (bytes_eqb (fst hr1) _);
    [|destruct (index0 n1); cbn in H; discriminate].
  unfold utf8_p in H. destruct (from_utf8 (snd hr1)) as [u|] eqn:Eu; [|discriminate].
  destruct it as [|n2 it]; [discriminate|].
  unfold expect_attr in H. destruct (slice2 n2) as [hr2|x1|]; cbn [rbind] in H; try discriminate.
  destruct (bytes_eqb (fst hr2) _);
    [|destruct (index0 n2); cbn in H; discriminate].
  destruct (forallb _ _); [|discriminate]. injection H as <-. cbn.
  split; [eauto using from_utf8_text|]. split.
  - intros y ->. destruct za as [|c za]; [discriminate|].
    destruct (slice2 (c :: za)) as [h|x1|]; cbn [rbind] in Ez; try discriminate.
    unfold utf8_p in Ez. destruct (from_utf8 (snd h)) eqn:E; [|discriminate].
    injection Ez as <-. eauto using from_utf8_text.
  - intros n ->. unfold cbflag_parse in Ec.
    destruct (bytes_eqb f1 _); [discriminate|]. destruct (bytes_eqb f1 _); [discriminate|].
    destruct f1 as [|p [|q [|x1 f1]]]; try discriminate.
    destruct (beq p _ && beq q _); [|discriminate].
    destruct (find _ _) eqn:Ef; [discriminate|]. injection Ec as <-.
    apply cbname_text. exact Ef.
Qed.

Lemma oauthbearer_textual input m : ob_parse input = Ok m -> textual (oauthbearer_provider m).
Proof.
  intros H. apply ob_text in H. destruct H as [Hz [Ht Hk]]. unfold oauthbearer_provider.
  destruct (om_authzid m) as [z|]; tex.
Qed.
Lemma scram_textual u z : utf8_text u -> (forall y, z = Some y -> utf8_text y) ->
  textual (scram_server_provider u z).
Proof. intros Hu Hz. unfold scram_server_provider. destruct z as [z|]; tex. Qed.

(** What the mechanism remembers between steps. *)
Definition mech_text (m : mech) : Prop :=
  match m with
  | XPlainS | XExternalS | XAnonymousS | XXOAuth2S _ | XOAuthBearerS _ | XGssapiS _ => True
  | XLoginS (LsPass u) => utf8_text u
  | XLoginS _ => True
  | XScramS _ (Some (SsClientFinal (Some d))) =>
      utf8_text (fi_username d) /\ (forall z, fi_authzid d = Some z -> utf8_text z)
  | XScramS _ _ => True
  | _ => False
  end.

(** [m] started with local state [l]. *)
Definition tstep {L A} (wrap : L -> mech) (m : M L A) (l : L) : Prop :=
  forall w, match m l w with (_, l', w') => tfits w w' /\ mech_text (wrap l') end.
Lemma tstep_keeps {L A} (wrap : L -> mech) (m : M L A) l : keeps tfits m ->
  lkeeps (fun l => mech_text (wrap l)) m -> mech_text (wrap l) -> tstep wrap m l.
Proof.
  intros Hk Hl H w. specialize (Hk l w). specialize (Hl l w H).
  destruct (m l w) as [[r l'] w']. auto.
Qed.

(** Results of a computation. *)
Definition rets {L A} (R : A -> Prop) (m : M L A) : Prop :=
  forall l w, match m l w with (Ok a, _, _) => R a | _ => True end.
Lemma rets_bind {L A B} (R : B -> Prop) (m : M L A) (f : A -> M L B) :
  (forall a, rets R (f a)) -> rets R (bind m f).
Proof.
  intros H l w. unfold bind. destruct (m l w) as [[[a|x|] l1] w1]; [apply H|exact I..].
Qed.

Lemma client_first_keeps e a plus i : keeps tfits (handle_client_first e a plus i).
Proof.
  pose proof tfits_frame as F. unfold handle_client_first, scram_parse.
  apply (keeps_of_res_bind _ F). intros cf Ecf.
  destruct (client_first_parse i) as [cf'| |] eqn:Ep; cbn in Ecf; try discriminate.
  injection Ecf as ->. apply client_first_text in Ep. destruct Ep as [Hu [Hz Hn]].
  pose proof (scram_textual _ _ Hu Hz) as Hc.
  apply (keeps_bind _ F); [apply (keeps_setl _ F)|]. intros _. cbv zeta.
  apply (keeps_bind _ F).
  { destruct (cf_cbflag cf) as [| |n]; [destruct plus; [apply (keeps_fail _ F)|apply (keeps_ret _ F)]
      |apply (keeps_ret _ F)|].
    apply tfits_need_cb_data; [exact Hc|apply Hn; reflexivity|]. intros v.
    repeat keep_step F. }
  intros _. apply (keeps_bind _ F).
  { apply tfits_maybe_need_with; [exact Hc|]. intros v. repeat keep_step F. }
  intros ps. unfold generate_nonce, random_bytes.
  repeat (first [keep_step F|apply tfits_writes|apply tfits_draws]).
Qed.
Lemma client_first_rets e a plus i : rets (fun d => match d with
    | Some d => utf8_text (fi_username d) /\ (forall z, fi_authzid d = Some z -> utf8_text z)
    | None => True end) (handle_client_first e a plus i).
Proof.
  unfold handle_client_first, scram_parse. intros l w. unfold bind at 1, of_res.
  destruct (client_first_parse i) as [cf| |] eqn:Ep; cbn [rmap_err]; [|exact I..].
  apply client_first_text in Ep. destruct Ep as [Hu [Hz _]]. revert l w.
  match goal with |- forall l w, match ?m l w with _ => _ end => change (rets (fun d => match d with
    | Some d => utf8_text (fi_username d) /\ (forall z, fi_authzid d = Some z -> utf8_text z)
    | None => True end) m) end.
  cbv zeta. apply rets_bind; intros _. apply rets_bind; intros _. apply rets_bind; intros ps.
  apply rets_bind; intros sn. destruct ps as [[[[it sa] sk] vk]|].
  - apply rets_bind; intros _. apply rets_bind; intros h. intros l w. cbn. auto.
  - apply rets_bind; intros salt. apply rets_bind; intros _. intros l w. exact I.
Qed.

Lemma client_final_keeps {L} e a d i :
  (forall d0, d = Some d0 ->
     utf8_text (fi_username d0) /\ (forall z, fi_authzid d0 = Some z -> utf8_text z)) ->
  keeps (L := L) tfits (handle_client_final e a d i).
Proof.
  intros Hd. pose proof tfits_frame as F. unfold handle_client_final, send_final.
  destruct d as [d|].
  - destruct (Hd d eq_refl) as [Hu Hz].
    repeat (first [keep_step F|apply tfits_writes
                  |apply tfits_validate; apply scram_textual; assumption]).
  - repeat (first [keep_step F|apply tfits_writes]).
Qed.

Lemma tstep_scram e a i l : mech_text (XScramS a l) ->
  tstep (XScramS a) (scram_server_step e a i) l.
Proof.
  intros H w. unfold scram_server_step, bind at 1, getl. unfold bind at 1, setl.
  pose proof tfits_frame as F.
  destruct l as [[plus|d|]|]; try (split; [apply F|exact I]).
  - destruct i as [i|]; [|split; [apply F|exact I]].
    unfold bind at 1, locally.
    pose proof (client_first_keeps e a plus i [] w) as K.
    pose proof (client_first_rets e a plus i [] w) as R.
    destruct (handle_client_first e a plus i [] w) as [[[d|x|] l1] w1]; cbn;
      (split; [exact K|]); [|exact I..]. destruct d; exact R || exact I.
  - destruct i as [i|]; [|split; [apply F|exact I]].
    assert (K : keeps (L := option scram_sst) tfits (handle_client_final e a d i)).
    { apply client_final_keeps. intros d0 ->. exact H. }
    specialize (K None w).
    assert (N : lkeeps (fun l => l = @None scram_sst) (handle_client_final e a d i)).
    { unfold handle_client_final, send_final. repeat lkeep_step. }
    specialize (N None w eq_refl).
    unfold bind at 1.
    destruct (handle_client_final e a d i None w) as [[[d1|x|] l1] w1]; cbn; (split; [exact K|]).
    + exact I.
    + cbn in N. subst l1. exact I.
    + cbn in N. subst l1. exact I.
Qed.

Lemma tstep_plain e i : prepares_text e -> tstep (fun _ => XPlainS) (plain_server_step e i) tt.
Proof.
  intros Hp. apply tstep_keeps; [|intros l w _; exact I|exact I].
  pose proof tfits_frame as F. unfold plain_server_step.
  destruct i as [i|]; [|apply (keeps_fail _ F)].
  destruct (plain_split i) as [[[z a] p]|]; [|apply (keeps_fail _ F)].
  destruct (from_utf8 z) as [z1|] eqn:Ez; [|apply (keeps_fail _ F)].
  destruct (from_utf8 a) as [a1|] eqn:Ea; [|apply (keeps_fail _ F)].
  destruct (e_saslprep e a1) as [a2|] eqn:Ep; [|apply (keeps_fail _ F)].
  apply Hp in Ep; [|exact (from_utf8_text _ _ Ea)]. apply from_utf8_text in Ez.
  assert (V : forall q, keeps tfits (L := unit) (validate e (plain_provider a2 z1 q) ;;; ret (Finished false))).
  { intros q. apply (keeps_bind _ F); [|intros; apply (keeps_ret _ F)].
    apply tfits_validate. unfold plain_provider. tex. }
  destruct a2 as [|c a2]; [apply (keeps_fail _ F)|].
  destruct (from_utf8 p) as [p1|].
  - destruct (e_saslprep e p1) as [[|c1 p2]|]; [apply (keeps_fail _ F)|apply V|apply (keeps_fail _ F)].
  - destruct p as [|c1 p]; [apply (keeps_fail _ F)|apply V].
Qed.
Lemma tstep_login e i l : mech_text (XLoginS l) -> tstep XLoginS (login_server_step e i) l.
Proof.
  intros H. pose proof tfits_frame as F.
  assert (E : forall w, login_server_step e i l w = (match l with
    | LsNew => write_all login_prompt1 ;;; setl LsUser ;;; ret Running
    | LsUser => match i with
                | None => fail EInputDataRequired
                | Some i => match from_utf8 i with
                            | None => fail (EMech MLoginUtf8)
                            | Some u => write_all login_prompt2 ;;; setl (LsPass u) ;;; ret Running
                            end
                end
    | LsPass u => match i with
                  | None => fail EInputDataRequired
                  | Some i => validate e (login_provider u i) ;;; setl LsDone ;;; ret (Finished false)
                  end
    | LsDone => fail EMechanismDone
    end) l w) by reflexivity.
  intros w. rewrite E. revert w.
  change (tstep XLoginS (match l with
    | LsNew => write_all login_prompt1 ;;; setl LsUser ;;; ret Running
    | LsUser => match i with
                | None => fail EInputDataRequired
                | Some i => match from_utf8 i with
                            | None => fail (EMech MLoginUtf8)
                            | Some u => write_all login_prompt2 ;;; setl (LsPass u) ;;; ret Running
                            end
                end
    | LsPass u => match i with
                  | None => fail EInputDataRequired
                  | Some i => validate e (login_provider u i) ;;; setl LsDone ;;; ret (Finished false)
                  end
    | LsDone => fail EMechanismDone
    end) l).
  destruct l as [| |u|].
  - apply tstep_keeps; [repeat (first [keep_step F|apply tfits_writes])|repeat lkeep_step; exact I|exact I].
  - destruct i as [i|]; [destruct (from_utf8 i) as [u|] eqn:Eu|];
      (apply tstep_keeps; [repeat (first [keep_step F|apply tfits_writes])|repeat lkeep_step|exact I]).
    exact (from_utf8_text _ _ Eu).
  - destruct i as [i|];
      (apply tstep_keeps; [repeat (first [keep_step F|apply tfits_validate])|repeat lkeep_step|exact H]).
    + cbn in H. unfold login_provider. tex.
    + exact I.
  - apply tstep_keeps; [repeat keep_step F|repeat lkeep_step|exact I].
Qed.
Lemma tstep_external e i : tstep (fun _ => XExternalS) (external_server_step e i) tt.
Proof.
  apply tstep_keeps; [|intros l w _; exact I|exact I]. pose proof tfits_frame as F.
  unfold external_server_step. destruct (from_utf8 _) as [z|] eqn:E; [|apply (keeps_fail _ F)].
  apply from_utf8_text in E. apply (keeps_bind _ F); [|intros; apply (keeps_ret _ F)].
  apply tfits_validate. unfold this_provider. tex.
Qed.
Lemma tstep_anonymous e i : tstep (fun _ => XAnonymousS) (anonymous_server_step e i) tt.
Proof.
  apply tstep_keeps; [|intros l w _; exact I|exact I]. pose proof tfits_frame as F.
  unfold anonymous_server_step. destruct (from_utf8 _) as [z|] eqn:E; [|apply (keeps_fail _ F)].
  apply from_utf8_text in E. apply (keeps_bind _ F); [|intros; apply (keeps_ret _ F)].
  apply tfits_validate. unfold this_provider. tex.
Qed.
Lemma tstep_xoauth2 e i l : tstep XXOAuth2S (xoauth2_server_step e i) l.
Proof.
  apply tstep_keeps; [|intros l1 w _; exact I|exact I]. pose proof tfits_frame as F.
  unfold xoauth2_server_step. apply (keeps_bind _ F); [apply (keeps_getl _ F)|].
  intros [|]; [|apply (keeps_ret _ F)]. destruct i as [i|]; [|apply (keeps_fail _ F)].
  apply (keeps_of_res_bind _ F). intros [a t] E.
  destruct (xoauth2_parse i) as [[a1 t1]| |] eqn:Ep; cbn in E; try discriminate.
  injection E as -> ->. apply xoauth2_text in Ep. destruct Ep as [Ha Ht]. cbv zeta.
  assert (Hc : textual (xoauth2_provider a t)) by (unfold xoauth2_provider; tex).
  apply (keeps_bind _ F).
  - apply tfits_need_with; [exact Hc|]. intros v.
    repeat (first [keep_step F|apply tfits_writes]).
  - intros st. apply (keeps_bind _ F); [apply tfits_validate; exact Hc|].
    intros; apply (keeps_ret _ F).
Qed.
Lemma tstep_oauthbearer e i l : tstep XOAuthBearerS (oauthbearer_server_step e i) l.
Proof.
  apply tstep_keeps; [|intros l1 w _; exact I|exact I]. pose proof tfits_frame as F.
  unfold oauthbearer_server_step. apply (keeps_bind _ F); [apply (keeps_getl _ F)|].
  intros [|]; [|apply (keeps_ret _ F)]. destruct i as [i|]; [|apply (keeps_fail _ F)].
  apply (keeps_of_res_bind _ F). intros m E.
  destruct (ob_parse i) as [m1| |] eqn:Ep; cbn in E; try discriminate.
  injection E as ->. apply oauthbearer_textual in Ep. cbv zeta.
  apply (keeps_bind _ F).
  - apply tfits_need_with; [exact Ep|]. intros v.
    repeat (first [keep_step F|apply tfits_writes]).
  - intros st. apply (keeps_bind _ F); [apply tfits_validate; exact Ep|].
    intros; apply (keeps_ret _ F).
Qed.
Lemma tstep_gssapi e i l : tstep XGssapiS (gss_server_step e i) l.
Proof.
  apply tstep_keeps; [|intros l1 w _; exact I|exact I]. pose proof tfits_frame as F.
  unfold gss_server_step, gss_server_pending, gss_server_installed.
  repeat (first [ lazymatch goal with
      | |- keeps _ (maybe_need_with _ _ _ _) => apply tfits_maybe_need_with; [apply empty_textual|intros ?]
      end | keep_step F | apply tfits_writes ]).
Qed.

Lemma step_text e s input script r out s' : prepares_text e -> mech_text (s_mech s) ->
  step e s input script = (r, out, s') ->
  mech_text (s_mech s') /\ exists evs, s_trace s' = s_trace s ++ evs /\ Forall text_event evs.
Proof.
  intros Hp Hm H. unfold step, run, mech_step in H. unfold bind at 1, getl in H.
  assert (K : forall L (wrap : L -> mech) l0 (m : M L state), tstep wrap m l0 ->
    match on wrap l0 m (s_mech s) (mk_world [] script (s_trace s) (s_rng s) (s_val s)) with
    | (r, mech', w') => (r, w_out w', mk_session mech' (w_trace w') (w_rng w') (w_val w'))
    end = (r, out, s') ->
    mech_text (s_mech s') /\   exists evs, s_trace s' = s_trace s ++ evs /\ Forall text_event evs).
  { intros L wrap l0 m Hs E. unfold on in E. specialize (Hs (mk_world [] script (s_trace s) (s_rng s) (s_val s))).
    destruct (m l0 _) as [[r1 l1] w1]. injection E as <- <- <-. destruct Hs as [[evs Hv] Ht].
    split; [exact Ht|]. exists evs. exact Hv. }
  destruct (s_mech s); try (destruct Hm; fail); revert H; apply K;
    auto using tstep_plain, tstep_login, tstep_external, tstep_anonymous, tstep_xoauth2,
      tstep_oauthbearer, tstep_scram, tstep_gssapi.
Qed.

Theorem server_text e reg name m s n s1 input script r out s2 evs :
  prepares_text e -> server_start reg name = Ok (Builtin (s_mech s), m) ->
  history e s n s1 -> step e s1 input script = (r, out, s2) -> new_events s1 s2 evs ->
  (forall c, shown evs c -> textual c) /\ (forall x, In (EvChan x) evs -> utf8_text x).
Proof.
  intros Hp Hst Hh H Hn.
  assert (H0 : mech_text (s_mech s)).
  { apply server_exact in Hst. destruct Hst as [_ Hf]. remember (s_mech s) as ms.
    clear - Hf. inversion Hf; subst; exact I. }
  assert (H1 : mech_text (s_mech s1)).
  { clear H Hn. induction Hh as [|k sa i sc o sb _ IH E|k sa i sc r1 o sb _ IH E _]; [exact H0|..];
      exact (proj1 (step_text _ _ _ _ _ _ _ Hp IH E)). }
  destruct (step_text _ _ _ _ _ _ _ Hp H1 H) as [_ [ev2 [E Hf]]].
  unfold new_events in Hn. rewrite E in Hn. apply app_inv_head in Hn. subst ev2.
  rewrite Forall_forall in Hf. split.
  - intros c [Hc|[[p Hc]|[p [v Hc]]]]; exact (Hf _ Hc).
  - intros x Hx. exact (Hf _ Hx).
Qed.
