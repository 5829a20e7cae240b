(** Proofs for C81. *)
From Coq Require Import Lia Eqdep_dec.
From Verif Require Import Bytes BytesFacts Base64 Num Types World WorldFacts Simple OAuth ScramParser Scram
  Gssapi Session MonadFacts Frame Spec_Simple Spec_Flow Spec_ScramText Spec_Scram Spec_Wire Spec_Keys Proof_Wire Proof_ScramText
  Proof_Scram Proof_Flow.
Open Scope m_scope.

(** * Runs whose results are related *)
Section RelR.
Context (vr : forall q, pval q -> pval q -> Prop).

Definition res_rel {A} (R : A -> A -> Prop) (r r' : res serr A) : Prop :=
  match r, r' with
  | Ok x, Ok x' => R x x'
  | Err x, Err x' => x' = x
  | Panic, Panic => True
  | _, _ => False
  end.
Definition mrelR {L A} (R : A -> A -> Prop) (m m' : M L A) : Prop := forall l w w', wrel vr w w' ->
  match m l w, m' l w' with
  | (r, l1, w1), (r', l1', w1') => res_rel R r r' /\ l1' = l1 /\ wrel vr w1 w1'
  end.

Lemma mrelR_of {L A} (R : A -> A -> Prop) (m m' : M L A) :
  (forall x, R x x) -> mrel vr m m' -> mrelR R m m'.
Proof.
  intros HR H l w w' Hw. specialize (H l w w' Hw).
  destruct (m l w) as [[r l1] w1], (m' l w') as [[r' l1'] w1']. destruct H as [-> [-> H]].
  split; [|auto]. destruct r; cbn; auto.
Qed.
Lemma mrelR_eq {L A} (m m' : M L A) : mrelR eq m m' -> mrel vr m m'.
Proof.
  intros H l w w' Hw. specialize (H l w w' Hw).
  destruct (m l w) as [[r l1] w1], (m' l w') as [[r' l1'] w1']. destruct H as [E [-> H]].
  split; [|auto]. destruct r, r'; cbn in E; try contradiction; congruence.
Qed.
Lemma mrelR_ret {L A} (R : A -> A -> Prop) x x' : R x x' -> mrelR R (@ret L A x) (ret x').
Proof. intros H l w w' Hw. cbn. auto. Qed.
Lemma mrelR_fail {L A} (R : A -> A -> Prop) x : mrelR R (@fail L A x) (fail x).
Proof. intros l w w' Hw. cbn. auto. Qed.
Lemma mrelR_bind {L A B} (R : A -> A -> Prop) (S : B -> B -> Prop) (m m' : M L A) (f f' : A -> M L B) :
  mrelR R m m' -> (forall x x', R x x' -> mrelR S (f x) (f' x')) -> mrelR S (bind m f) (bind m' f').
Proof.
  intros Hm Hf l w w' H. unfold bind. specialize (Hm l w w' H).
  destruct (m l w) as [[r l1] w1], (m' l w') as [[r' l1'] w1']. destruct Hm as [E [-> Hw]].
  destruct r as [x|x|], r' as [x'|x'|]; cbn in E; try contradiction; subst; cbn; auto.
  apply Hf; assumption.
Qed.
Lemma mrelR_locally {L L' A} (R : A -> A -> Prop) (l0 : L') (m m' : M L' A) :
  mrelR R m m' -> mrelR (fun x x' => R (fst x) (fst x') /\ snd x' = snd x) (@locally L L' A l0 m) (locally l0 m').
Proof.
  intros Hm l w w' H. unfold locally. specialize (Hm l0 w w' H).
  destruct (m l0 w) as [[r l1] w1], (m' l0 w') as [[r' l1'] w1']. destruct Hm as [E [-> Hw]].
  destruct r as [x|x|], r' as [x'|x'|]; cbn in E; try contradiction; subst; cbn; auto.
Qed.

Context (e : env) (cb' : callback_of) (vcb' : validator_of) (kdf : kdf_of)
  (Hap : apps_rel vr (e_sd e) (e_cb e) cb' (e_vcb e) vcb').

Definition st_rel {G} (R : G -> G -> Prop) (s s' : closure_cr G) : Prop :=
  match s, s' with
  | CrSatisfied x, CrSatisfied x' => R x x'
  | CrOpen, CrOpen | CrTaken, CrTaken => True
  | _, _ => False
  end.

Lemma cr_satisfyR {L G} (R : G -> G -> Prop) q (f f' : pval q -> M L G) st st' v v' l w w' :
  (forall v v', vr q v v' -> mrelR R (f v) (f' v')) -> vr q v v' -> st_rel R st st' -> wrel vr w w' ->
  match cr_satisfy q f st v l w, cr_satisfy q f' st' v' l w' with
  | (r, st1, l1, w1), (r', st1', l1', w1') => r' = r /\ st_rel R st1 st1' /\ l1' = l1 /\ wrel vr w1 w1'
  end.
Proof.
  intros Hf Hv Hs H. unfold cr_satisfy.
  destruct st, st'; cbn in Hs; try contradiction; try discriminate; cbn; auto.
  unfold bind, log.
  assert (H0 : wrel vr (add_event (EvAnswer q v) w) (add_event (EvAnswer q v') w')).
  { apply wrel_event; auto. apply ER_answer, Hv. }
  specialize (Hf v v' Hv l _ _ H0).
  destruct (f v l _) as [[r l1] w1], (f' v' l _) as [[r' l1'] w1']. destruct Hf as [E [-> H1]].
  destruct r, r'; cbn in E; try contradiction; subst; cbn; auto.
Qed.

Lemma run_satisfyR {L G} (R : G -> G -> Prop) q (f f' : pval q -> M L G) p p' :
  (forall v v', vr q v v' -> mrelR R (f v) (f' v')) -> answers_rel vr p p' ->
  forall st st' l w w', st_rel R st st' -> wrel vr w w' ->
  match run_satisfy q f p st l w, run_satisfy q f' p' st' l w' with
  | (r, st1, l1, w1), (r', st1', l1', w1') => r' = r /\ st_rel R st1 st1' /\ l1' = l1 /\ wrel vr w1 w1'
  end.
Proof.
  intros Hf Hp. induction Hp as [r|p v v' k k' Hv _ IH|p v v' k k' Hv _ IH|p x k k' _ IH
    |p k k' _ IH|p k k' _ IH]; intros st st' l w w' Hs H; cbn [run_satisfy]; auto.
  - destruct (prop_eq_dec p q) as [->|N].
    + rewrite !castp_refl.
      pose proof (cr_satisfyR R q f f' st st' v v' l w w' Hf Hv Hs H) as H1.
      destruct (cr_satisfy q f st v l w) as [[[r st1] l1] w1],
        (cr_satisfy q f' st' v' l w') as [[[r' st1'] l1'] w1'].
      destruct H1 as [-> [Hs1 [-> H1]]]. destruct r as [u|x|]; auto; apply IH; assumption.
    + rewrite !castp_other by assumption. apply IH; assumption.
  - destruct (prop_eq_dec p q) as [->|N]; [|apply IH; assumption].
    rewrite !castp_refl. cbn zeta.
    assert (H0 : wrel vr (add_event (EvClosure q) w) (add_event (EvClosure q) w')).
    { apply wrel_event; auto. constructor. }
    pose proof (cr_satisfyR R q f f' st st' v v' l _ _ Hf Hv Hs H0) as H1.
    destruct (cr_satisfy q f st v l _) as [[[r st1] l1] w1],
      (cr_satisfy q f' st' v' l _) as [[[r' st1'] l1'] w1'].
    destruct H1 as [-> [Hs1 [-> H1]]]. destruct r as [u|x|]; auto; apply IH; assumption.
  - destruct (prop_eq_dec p q) as [->|N]; [|apply IH; assumption]. cbn zeta.
    apply IH; auto. apply wrel_event; auto. constructor.
  - apply IH; assumption.
  - apply IH; assumption.
Qed.

Lemma maybe_need_withR {L G} (R : G -> G -> Prop) q c (f f' : pval q -> M L G) :
  (forall v v', vr q v v' -> mrelR R (f v) (f' v')) ->
  mrelR (fun o o' => match o, o' with Some x, Some x' => R x x' | None, None => True | _, _ => False end)
    (maybe_need_with e q c f) (maybe_need_with (set_apps e cb' vcb' kdf) q c f').
Proof.
  intros Hf l w w' H. unfold maybe_need_with.
  assert (H0 : wrel vr (add_event (EvRequest q c) w) (add_event (EvRequest q c) w')).
  { apply wrel_event; auto. constructor. }
  pose proof (run_satisfyR R q f f' _ _ Hf
    (proj1 (Hap _ _ (wr_trace _ _ _ H)) c (RSatisfy q)) CrOpen CrOpen l _ _ I H0) as H1.
  change (e_cb (set_apps e cb' vcb' kdf)) with cb'.
  change (e_sd (set_apps e cb' vcb' kdf)) with (e_sd e). cbn zeta.
  destruct (run_satisfy q f _ _ l _) as [[[r st1] l1] w1],
    (run_satisfy q f' _ _ l _) as [[[r' st1'] l1'] w1'].
  destruct H1 as [-> [Hs [-> H1]]]. destruct r as [r|x|]; cbn; auto.
  destruct (mask_early r) as [[]|]; cbn; auto;
    (split; [|auto]); destruct st1, st1'; cbn in Hs; try contradiction; auto.
Qed.
End RelR.

(** * The first message *)
Definition fi_of (cn sn h u : bytes) (z : option bytes) (sp : stored) : final_inner :=
  mk_fi cn sn h u z (encode (st_salt sp)) (fmt_u32 (st_iterations sp)) (st_stored_key sp) (st_server_key sp).
Definition data_rel (o o' : option final_inner) : Prop :=
  (o = None /\ o' = None) \/
  exists cn sn h u z sp sp', same_public sp sp' /\ o = Some (fi_of cn sn h u z sp) /\
    o' = Some (fi_of cn sn h u z sp').

Lemma other_keys_same q v v' : q <> PScramStoredPassword -> other_keys q v v' -> v = v'.
Proof. intros N E. destruct E; [reflexivity|contradiction]. Qed.
Lemma other_keys_stored sp sp' : other_keys PScramStoredPassword sp sp' -> same_public sp sp'.
Proof.
  intros E.
  refine (match E in other_keys q x x' return
            match q return pval q -> pval q -> Prop with
            | PScramStoredPassword => fun x x' => same_public x x'
            | _ => fun _ _ => True
            end x x' with
          | OK_other q v N => _
          | OK_stored x x' H => H
          end).
  destruct q; auto. contradiction.
Qed.

Definition params_rel (x x' : bytes * bytes * bytes * bytes) : Prop :=
  exists sp sp', same_public sp sp' /\
    x = (fmt_u32 (st_iterations sp), encode (st_salt sp), st_stored_key sp, st_server_key sp) /\
    x' = (fmt_u32 (st_iterations sp'), encode (st_salt sp'), st_stored_key sp', st_server_key sp').

Section Server.
Context (e : env) (cb' : callback_of) (vcb' : validator_of)
  (Hap : apps_rel other_keys (e_sd e) (e_cb e) cb' (e_vcb e) vcb').
Let e' := set_apps e cb' vcb' (e_pbkdf2 e).

Ltac rels := unfold_steps; repeat (first
  [ rel_step Hap
  | intros; apply (other_keys_same PChannelBindings); [discriminate|assumption] ]).
Ltac same := apply mrelR_of; [auto|].

Lemma first_alike a plus m :
  mrelR other_keys data_rel (handle_client_first e a plus m) (handle_client_first e' a plus m).
Proof.
  unfold handle_client_first.
  apply (mrelR_bind _ eq); [same; rels|]. intros cf ? <-.
  apply (mrelR_bind _ eq); [same; rels|]. intros _ _ _. cbv zeta.
  apply (mrelR_bind _ eq); [same; rels|]. intros _ _ _.
  eapply (mrelR_bind _ _ data_rel).
  { apply (maybe_need_withR _ e cb' vcb' (e_pbkdf2 e) Hap params_rel). intros sp sp' H.
    apply other_keys_stored in H. rewrite (sp_stored_len _ _ H), (sp_server_len _ _ H).
    destruct (_ && _); [|apply mrelR_fail]. apply mrelR_ret. exists sp, sp'. auto. }
  intros o o' Ho.
  apply (mrelR_bind _ eq); [same; rels|]. intros sn ? <-.
  destruct o as [x|], o' as [x'|]; try contradiction.
  - destruct Ho as (sp & sp' & H & -> & ->). cbv beta iota.
    rewrite (sp_iterations _ _ H), (sp_salt _ _ H).
    apply (mrelR_bind _ eq); [same; rels|]. intros _ _ _.
    apply (mrelR_bind _ eq); [same; rels|]. intros h ? <-.
    apply mrelR_ret. right. exists (cf_nonce cf), sn, h, (cf_username cf), (cf_authzid cf), sp, sp'.
    unfold fi_of. rewrite (sp_iterations _ _ H), (sp_salt _ _ H). auto.
  - apply (mrelR_bind _ eq); [same; rels|]. intros salt ? <-.
    apply (mrelR_bind _ eq); [same; rels|]. intros _ _ _.
    apply mrelR_ret. left. auto.
Qed.

(** * The final message *)
Definition refusal {L} (a : alg) (cn sn header : bytes) (m : bytes) : M L unit :=
  cl <- scram_parse (client_final_parse m) ;;
  match decode (cl_cb cl) with
  | None => scram_proto PrBase64Decode
  | Some cb =>
      if negb (bytes_eqb header cb) then send_final (SfError SeChannelBindingsDontMatch)
      else match strip_prefix cn (cl_nonce cl) with
      | None => send_final (SfError SeInvalidProof)
      | Some remainder =>
          if bytes_eqb remainder sn && Nat.leb (length (cl_proof cl)) (hlen a * 4 / 3 + 3)
          then match decode_slice (cl_proof cl) (hlen a) with
               | None => scram_proto PrBase64Decode
               | Some _ => send_final (SfError SeInvalidProof)
               end
          else send_final (SfError SeInvalidProof)
      end
  end.

Lemma final_refusal {L} f a cn sn h u z sp m (l : L) w :
  (forall a k x, length (e_hmac f a k x) = hlen a) ->
  (forall cb p64 exts, ~ authenticates f a cn sn h u sp m cb p64 exts) ->
  handle_client_final f a (Some (fi_of cn sn h u z sp)) m l w = refusal a cn sn h m l w.
Proof.
  intros Hcr Hno. unfold handle_client_final, refusal, fi_of.
  unfold bind at 1. symmetry. unfold bind at 1. symmetry. unfold scram_parse, of_res.
  cbn [fi_client_nonce fi_server_nonce fi_gs2_header fi_username fi_authzid fi_salt fi_iterations
       fi_stored_key fi_server_key].
  destruct (client_final_parse m) as [[cb fn p64]|x|] eqn:Ep; cbn [rmap_err]; auto.
  cbn [cl_cb cl_nonce cl_proof].
  apply client_final_parse_exact in Ep. destruct Ep as [exts [Em [F1 [F2 [F3 F4]]]]].
  destruct (decode cb) as [b|] eqn:Ecb; auto.
  destruct (bytes_eqb h b) eqn:Eh; cbn [negb]; auto. apply bytes_eqb_eq in Eh. subst b.
  destruct (strip_prefix cn fn) as [sn'|] eqn:Es; auto. apply strip_prefix_iff in Es. subst fn.
  destruct (bytes_eqb sn' sn) eqn:En; auto. apply bytes_eqb_eq in En. subst sn'. cbn [andb].
  destruct (Nat.leb (length p64) (hlen a * 4 / 3 + 3)); auto.
  destruct (decode_slice p64 (hlen a)) as [P|] eqn:Ed; auto.
  assert (HP : proof_value a p64 P) by (apply decode_slice_some; exact Ed).
  unfold compute_signatures. cbn [fst snd]. rewrite auth_message_rfc.
  fold (exchange_message u cn sn (encode (st_salt sp)) (fmt_u32 (st_iterations sp)) cb).
  rewrite (bind_step _ _ _ _ _ _ _ (exact_ok a _ l w
    (eq_trans (xor_zip_length P _) (eq_trans (f_equal2 Nat.min (proof_value_length _ _ _ HP)
      (Hcr _ _ _)) (Nat.min_id _))))).
  destruct (bytes_eqb (st_stored_key sp) _) eqn:Eq; auto.
  apply bytes_eqb_eq in Eq. exfalso. apply (Hno cb p64 exts).
  split; [exact Em|]. repeat (split; [assumption|]). exists P. split; [exact HP|].
  unfold proves. rewrite <- xor_zip_text. symmetry. exact Eq.
Qed.

Lemma refusal_same {L} a cn sn h m : mrel other_keys (@refusal L a cn sn h m) (refusal a cn sn h m).
Proof. unfold refusal, send_final. rels. Qed.

Lemma final_same {L} a d m :
  mrel other_keys (@handle_client_final L e a d m) (handle_client_final e' a d m).
Proof. unfold handle_client_final, send_final. rels. Qed.

Definition state_rel (st st' : option scram_sst) : Prop :=
  st' = st \/ exists o o', data_rel o o' /\ st = Some (SsClientFinal o) /\ st' = Some (SsClientFinal o').

Lemma server_step_alike a input st st' w w' :
  crypto_ok e -> state_rel st st' -> wrel other_keys w w' ->
  (forall cn sn h u z sp sp' m cb p64 exts,
     st = Some (SsClientFinal (Some (fi_of cn sn h u z sp))) ->
     st' = Some (SsClientFinal (Some (fi_of cn sn h u z sp'))) -> input = Some m ->
     ~ authenticates e a cn sn h u sp m cb p64 exts /\
     ~ authenticates e' a cn sn h u sp' m cb p64 exts) ->
  match scram_server_step e a input st w, scram_server_step e' a input st' w' with
  | (r, t, w1), (r', t', w1') => r' = r /\ state_rel t t' /\ wrel other_keys w1 w1'
  end.
Proof.
  intros Hcr Hst Hw Hno.
  assert (Final : forall o o' m, (forall L, mrel other_keys (@handle_client_final L e a o m)
      (handle_client_final e' a o' m)) ->
    match scram_server_step e a (Some m) (Some (SsClientFinal o)) w,
          scram_server_step e' a (Some m) (Some (SsClientFinal o')) w' with
    | (r, t, w1), (r', t', w1') => r' = r /\ state_rel t t' /\ wrel other_keys w1 w1'
    end).
  { intros o o' m H. unfold scram_server_step. cbn [bind getl setl].
    unfold bind, getl, setl. specialize (H _ (@None scram_sst) w w' Hw).
    destruct (handle_client_final e a o m None w) as [[r t] w1],
      (handle_client_final e' a o' m None w') as [[r' t'] w1']. destruct H as [-> [-> H]].
    destruct r; cbn; (split; [reflexivity|]); (split; [left; reflexivity|exact H]). }
  destruct Hst as [->|(o & o' & Hd & -> & ->)].
  - destruct st as [[plus|o|]|].
    + destruct input as [m|].
      2:{ cbn. split; [reflexivity|]. split; [left; reflexivity|exact Hw]. }
      unfold scram_server_step, bind, getl, setl, locally.
      pose proof (first_alike a plus m [] w w' Hw) as H.
      destruct (handle_client_first e a plus m [] w) as [[r t] w1],
        (handle_client_first e' a plus m [] w') as [[r' t'] w1']. destruct H as [E [-> H]].
      destruct r as [o|x|], r' as [o'|x'|]; cbn in E; try contradiction; cbn.
      * split; [reflexivity|]. split; [|exact H]. right. exists o, o'. auto.
      * subst x'. split; [reflexivity|]. split; [left; reflexivity|exact H].
      * split; [reflexivity|]. split; [left; reflexivity|exact H].
    + destruct input as [m|].
      * apply Final. intros L. apply final_same.
      * cbn. split; [reflexivity|]. split; [left; reflexivity|exact Hw].
    + cbn. split; [reflexivity|]. split; [left; reflexivity|exact Hw].
    + cbn. split; [reflexivity|]. split; [left; reflexivity|exact Hw].
  - destruct input as [m|].
    2:{ cbn. split; [reflexivity|]. split; [left; reflexivity|exact Hw]. }
    destruct Hd as [[-> ->]|(cn & sn & h & u & z & sp & sp' & Hp & -> & ->)].
    + apply Final. intros L. apply final_same.
    + apply Final. intros L l v v' Hv.
      assert (Hh : forall a k x, length (e_hmac e a k x) = hlen a) by apply Hcr.
      rewrite (final_refusal e) by
        (try exact Hh; intros; eapply (Hno cn sn h u z sp sp'); reflexivity).
      rewrite (final_refusal e') by
        (try exact Hh; intros; eapply (Hno cn sn h u z sp sp'); reflexivity).
      apply refusal_same. exact Hv.
Qed.

Theorem keys_step a s s' input script : crypto_ok e -> servers_alike a s s' ->
  (forall m, input = Some m -> ~ proof_received e s m /\ ~ proof_received e' s' m) ->
  exists r out t t', step e s input script = (r, out, t) /\ step e' s' input script = (r, out, t') /\
    servers_alike a t t'.
Proof.
  intros Hcr [Hm Hr Ht Hv] Hno.
  assert (Hw : wrel other_keys (mk_world [] script (s_trace s) (s_rng s) (s_val s))
    (mk_world [] script (s_trace s') (s_rng s) (s_val s'))) by (split; cbn; auto).
  assert (Hst : exists st st', s_mech s = XScramS a st /\ s_mech s' = XScramS a st' /\ state_rel st st').
  { destruct Hm as [(st & E & E')|(cn & sn & h & u & z & sp & sp' & Hp & E & E')].
    - exists st, st. split; [exact E|]. split; [exact E'|]. left; reflexivity.
    - eexists; eexists. split; [exact E|]. split; [exact E'|]. right. eexists; eexists.
      split; [|split; reflexivity]. right. exists cn, sn, h, u, z, sp, sp'. auto. }
  destruct Hst as (st & st' & E & E' & Hst).
  pose proof (server_step_alike a input st st' _ _ Hcr Hst Hw) as H.
  unfold step, run, mech_step, bind, getl. rewrite E, E', Hr. unfold on.
  destruct (scram_server_step e a input st _) as [[r t] w1],
    (scram_server_step e' a input st' _) as [[r' t'] w1'].
  destruct H as [-> [Ht' [Ho Hs Hr' Htr Hv']]].
  { intros cn sn h u z sp sp' m cb p64 exts -> -> ->. destruct (Hno m eq_refl) as [N N'].
    split; intros A; [apply N|apply N'];
      (do 10 eexists; split; [|exact A]); unfold server_waits; [exact E|exact E']. }
  exists r, (w_out w1). eexists; eexists. split; [reflexivity|]. split; [rewrite Ho; reflexivity|].
  split; cbn; auto.
  destruct Ht' as [->|(o & o' & [[-> ->]|(cn & sn & h & u & z & sp & sp' & Hp & -> & ->)] & -> & ->)].
  - left. eauto.
  - left. eauto.
  - right. exists cn, sn, h, u, z, sp, sp'. split; [exact Hp|]. split; reflexivity.
Qed.

Theorem keys_dialogue a l : crypto_ok e -> forall s s', servers_alike a s s' ->
  ~ ever_proven e s l -> ~ ever_proven e' s' l ->
  dialogue e' s' l = dialogue e s l /\ servers_alike a (after e s l) (after e' s' l).
Proof.
  intros Hcr. induction l as [|[input script] l IH]; intros s s' Hs N N'; [cbn; auto|].
  destruct (keys_step a s s' input script Hcr Hs) as (r & out & t & t' & E & E' & Ht).
  { intros m ->. split; intros P; [apply N|apply N']; exists [], m, script, l; auto. }
  cbn [dialogue after]. rewrite E, E'. cbn [snd].
  destruct (IH t t' Ht) as [Ed Ha].
  - intros (l1 & m & sc & l2 & -> & P). apply N. exists ((input, script) :: l1), m, sc, l2.
    split; [reflexivity|]. cbn [after]. rewrite E. exact P.
  - intros (l1 & m & sc & l2 & -> & P). apply N'. exists ((input, script) :: l1), m, sc, l2.
    split; [reflexivity|]. cbn [after]. rewrite E'. exact P.
  - rewrite Ed. auto.
Qed.
End Server.
