(** What can make SCRAM panic. *)
From Coq Require Import Lia ZArith ZifyN ZifyBool.
From Verif Require Import Bytes BytesFacts Utf8 Utf8Facts Types World CallbackSpec WorldFacts Base64
  Base64Facts Num NumFacts Simple OAuth ScramParser Scram Gssapi Session
  Spec_Simple Spec_OAuth Spec_ScramText Spec_Scram MonadFacts Frame Calm Proof_Simple Proof_OAuth
  Proof_ScramText Proof_Scram.
Open Scope m_scope.

Lemma part_of m p : In p (split is_comma m) ->
  exists b, free ","%char p /\ tail_of_attributes b /\
    (m = p ++ b \/ exists a, m = a ++ lit "," ++ p ++ b).
Proof.
  remember (split is_comma m) as l eqn:E. symmetry in E. revert m E.
  induction l as [|x l IH]; intros m E Hi; [destruct Hi|].
  destruct (csplit_cons _ _ _ E) as [Fx Hm]. destruct Hi as [->|Hi].
  - destruct Hm as [[-> ->]|[r [_ [-> _]]]].
    + exists []. rewrite app_nil_r. split; [exact Fx|]. split; [left; reflexivity|left; reflexivity].
    + exists (","%char :: r). split; [exact Fx|]. split; [right; eauto|left; reflexivity].
  - destruct Hm as [[-> ->]|[r [_ [-> Er]]]]; [destruct Hi|].
    destruct (IH r Er Hi) as [b [F [T Hr]]]. exists b. split; [exact F|]. split; [exact T|]. right.
    destruct Hr as [->|[a ->]].
    + exists x. reflexivity.
    + exists (x ++ lit "," ++ a). rewrite <- !app_assoc. reflexivity.
Qed.
Lemma short_part m p : In p (split is_comma m) -> length p < 2 -> short_attribute m.
Proof.
  intros H Hl. destruct (part_of _ _ H) as [b [F [T Hm]]]. exists p, b. auto.
Qed.

Lemma slice2_panic {E} x : @slice2 E x = Panic -> length x < 2.
Proof. destruct x as [|a [|b x]]; cbn; intros; try lia; discriminate. Qed.
Lemma expect_panic {A} tag next (k : bytes -> res parseerr A) :
  expect_attr tag next k = Panic -> length next < 2 \/ exists v, next = firstn 2 next ++ v /\ k v = Panic.
Proof.
  unfold expect_attr. destruct next as [|a [|b x]]; cbn; intros H; try (left; lia). right.
  exists x. split; [reflexivity|]. revert H. match goal with |- (if ?c then _ else _) = _ -> _ => destruct c end; [auto|discriminate].
Qed.

Lemma server_first_panic m : server_first_parse m = Panic -> short_attribute m.
Proof.
  unfold server_first_parse. intros H.
  assert (Hs : forall p, In p (split is_comma m) -> length p < 2 -> short_attribute m)
    by (intros; eapply short_part; eauto).
  destruct (split is_comma m) as [|p1 it]; cbn [next_part] in H; [discriminate|].
  destruct (Nat.ltb (length p1) 2) eqn:L1; [discriminate|]. apply Nat.ltb_ge in L1.
  destruct (slice2 p1) as [[h t]|x|] eqn:S1; cbn [rbind fst snd] in H;
    [|discriminate|apply slice2_panic in S1; lia].
  destruct (bytes_eqb h (lit "m=")); [discriminate|].
  apply expect_panic in H. destruct H as [H|[v [_ H]]]; [lia|].
  destruct it as [|p2 it]; cbn [next_part] in H; [discriminate|].
  apply expect_panic in H. destruct H as [H|[v2 [_ H]]]; [apply (Hs p2); [cbn; auto|exact H]|].
  destruct it as [|p3 it]; cbn [next_part] in H; [discriminate|].
  apply expect_panic in H. destruct H as [H|[v3 [_ H]]]; [apply (Hs p3); [cbn; auto|exact H]|].
  destruct it as [|p4 it]; [discriminate|].
  destruct p4 as [|b p4]; cbn in H; [|discriminate].
  apply (Hs []); [cbn; auto|cbn; lia].
Qed.

Lemma find_proof_panic it : find_proof it = Panic -> exists p, In p it /\ length p < 2.
Proof.
  induction it as [|x it IH]; cbn [find_proof]; [discriminate|].
  destruct (slice2 x) as [[h t]|y|] eqn:S1.
  - destruct (bytes_eqb h (lit "p=")); [discriminate|].
    destruct (bytes_eqb h (lit "m=")); [discriminate|].
    intros H. destruct (IH H) as [p [Hi Hl]]. exists p. split; [right|]; assumption.
  - discriminate.
  - intros _. exists x. split; [left; reflexivity|]. exact (slice2_panic _ S1).
Qed.
Lemma find_proof_rest it : forall p r, find_proof it = Ok (p, r) -> forall x, In x r -> In x it.
Proof.
  induction it as [|y it IH]; intros p r; cbn [find_proof]; [discriminate|].
  destruct (slice2 y) as [[h t]|z|]; try discriminate.
  destruct (bytes_eqb h (lit "p=")).
  - intros [= <- <-] x Hx. right; exact Hx.
  - destruct (bytes_eqb h (lit "m=")); [discriminate|]. intros H x Hx. right. eapply IH; eauto.
Qed.
Lemma client_final_panic m : client_final_parse m = Panic -> short_attribute m.
Proof.
  unfold client_final_parse. intros H.
  assert (Hs : forall p, In p (split is_comma m) -> length p < 2 -> short_attribute m)
    by (intros; eapply short_part; eauto).
  destruct (split is_comma m) as [|p1 it]; cbn [next_part] in H; [discriminate|].
  apply expect_panic in H. destruct H as [H|[v [_ H]]]; [apply (Hs p1); [cbn; auto|exact H]|].
  destruct it as [|p2 it]; cbn [next_part] in H; [discriminate|].
  apply expect_panic in H. destruct H as [H|[v2 [_ H]]]; [apply (Hs p2); [cbn; auto|exact H]|].
  destruct (find_proof it) as [[p r]|x|] eqn:Ef; cbn [rbind fst snd] in H; [|discriminate|].
  - destruct r as [|x r]; [discriminate|]. destruct x as [|b x]; cbn in H; [|discriminate].
    apply (Hs []); [|cbn; lia]. right. right. apply (find_proof_rest _ _ _ Ef). left. reflexivity.
  - destruct (find_proof_panic _ Ef) as [q [Hi Hl]]. apply (Hs q); [right; right; exact Hi|exact Hl].
Qed.
Lemma server_final_panic m : server_final_parse m = Panic -> length m < 2.
Proof.
  destruct m as [|a [|b m]]; cbn -[bytes_eqb]; intros H; try lia. exfalso. revert H.
  destruct (bytes_eqb _ _); [discriminate|]. destruct (bytes_eqb _ _); discriminate.
Qed.
Lemma cbflag_calm x : cbflag_parse x <> Panic.
Proof.
  unfold cbflag_parse. destruct (bytes_eqb _ _); [discriminate|].
  destruct (bytes_eqb _ _); [discriminate|]. destruct x as [|p [|q [|r x]]]; try discriminate.
  destruct (_ && _); [|discriminate]. destruct (find _ _); discriminate.
Qed.
Lemma client_first_panic m : client_first_parse m = Panic -> short_after_flag m.
Proof.
  unfold client_first_parse. intros H.
  destruct (split is_comma m) as [|p1 it] eqn:E1; cbn [next_part] in H; [discriminate|].
  destruct (csplit_cons _ _ _ E1) as [F1 Hm].
  pose proof (cbflag_calm p1) as Hf.
  destruct (cbflag_parse p1) as [f|x|]; cbn [rbind] in H; [|discriminate|congruence]. clear Hf.
  destruct Hm as [[-> _]|[r [_ [-> E2]]]]; [discriminate|].
  destruct it as [|p2 it]; [discriminate|]. cbn [next_part] in H.
  destruct (csplit_cons _ _ _ E2) as [F2 Hm].
  assert (Hz : length p2 = 1 \/ exists o, (match p2 with
         | [] => Ok None
         | _ => rbind (slice2 p2) (fun hr => utf8_p (snd hr) (fun s => Ok (Some s)))
         end) = o /\ o <> Panic).
  { destruct p2 as [|x [|y p2]]; [right; eexists; split; [reflexivity|discriminate]|left; reflexivity|].
    right. eexists. split; [reflexivity|]. cbn. unfold utf8_p. destruct (from_utf8 _); discriminate. }
  destruct Hz as [Hz|[o [Ho Hop]]].
  - assert (T : exists b, r = p2 ++ b /\ tail_of_attributes b).
    { destruct Hm as [[-> ->]|[r' [_ [-> _]]]];
        [exists []; rewrite app_nil_r; split; [|left]; reflexivity|].
      exists (","%char :: r'). split; [reflexivity|right; eauto]. }
    destruct T as [b [-> T]]. exists p1, p2, b. split; [reflexivity|]. split; [exact F1|].
    split; [exact F2|]. left. auto.
  - rewrite Ho in H. destruct o as [z|x|]; cbn [rbind] in H; [|discriminate|congruence].
    destruct Hm as [[-> _]|[r' [_ [-> E3]]]]; [discriminate|].
    exists p1, p2, (","%char :: r'). split; [reflexivity|]. split; [exact F1|]. split; [exact F2|].
    right. exists r'. split; [reflexivity|].
    assert (Hs : forall p, In p (split is_comma r') -> length p < 2 -> short_attribute r')
      by (intros; eapply short_part; eauto).
    rewrite E3 in Hs.
    destruct it as [|p3 it]; cbn [next_part] in H; [discriminate|].
    destruct (slice2 p3) as [[h t]|x|] eqn:S3; cbn [rbind fst snd] in H;
      [|discriminate|apply (Hs p3); [left; reflexivity|exact (slice2_panic _ S3)]].
    destruct (bytes_eqb h (lit "m=")); [discriminate|].
    apply expect_panic in H. destruct H as [H|[v [_ H]]]; [apply (Hs p3); [cbn; auto|exact H]|].
    unfold utf8_p in H. destruct (from_utf8 v); [|discriminate].
    destruct it as [|p4 it]; cbn [next_part] in H; [discriminate|].
    apply expect_panic in H. destruct H as [H|[v4 [_ H]]]; [apply (Hs p4); [cbn; auto|exact H]|].
    destruct (forallb _ _); discriminate.
Qed.

(** * Steps *)

Lemma calm_at {L A} (m : M L A) l w l' w' : calm m -> m l w = (Panic, l', w') -> False.
Proof. intros H E. specialize (H l w). rewrite E in H. apply H. reflexivity. Qed.
Lemma bind_panic {L A B} (m : M L A) (f : A -> M L B) l w l' w' :
  bind m f l w = (Panic, l', w') ->
  m l w = (Panic, l', w') \/ exists a l1 w1, m l w = (Ok a, l1, w1) /\ f a l1 w1 = (Panic, l', w').
Proof.
  unfold bind. destruct (m l w) as [[[a|x|] l1] w1]; intros H; [right; eauto|discriminate|left].
  congruence.
Qed.
Lemma calm_esc {L} x : calm (@esc L x).
Proof. apply calm_of_res, rmap_err_calm, escape_calm. Qed.

Lemma client_first_calm e plus : calm (send_client_first e plus).
Proof.
  assert (Hp : forall x, calm (push_gs2 x)) by (intros x l w; discriminate).
  assert (Hs : forall x, calm (set_cbdata x)) by (intros x l w; discriminate).
  unfold send_client_first, client_cbflag, generate_nonce.
  repeat lazymatch goal with
  | |- calm (push_gs2 _) => apply Hp
  | |- calm (set_cbdata _) => apply Hs
  | |- calm (esc _) => apply calm_esc
  | |- _ => calm_step
  end.
Qed.

Lemma server_first_calm e a plus m : client_first_parse m <> Panic ->
  calm (handle_client_first e a plus m).
Proof.
  intros H. unfold handle_client_first, generate_nonce, random_bytes.
  apply calm_bind; [apply calm_of_res, rmap_err_calm; exact H|]. intros cf.
  repeat calm_step.
Qed.

Lemma calm_send_final {L} m : calm (@send_final L m).
Proof. unfold send_final. repeat calm_step. Qed.

Lemma server_final_calm {L} e a d m : crypto_ok e -> client_final_parse m <> Panic ->
  calm (@handle_client_final L e a d m).
Proof.
  intros Hc H. unfold handle_client_final.
  apply calm_bind; [apply calm_of_res, rmap_err_calm; exact H|]. intros cl.
  destruct d as [d|]; [|apply calm_send_final].
  destruct (decode (cl_cb cl)); [|apply calm_fail].
  destruct (negb _); [apply calm_send_final|].
  destruct (strip_prefix _ _); [|apply calm_send_final].
  destruct (_ && _); [|apply calm_send_final].
  destruct (decode_slice (cl_proof cl) (hlen a)) as [P|] eqn:E; [|apply calm_fail].
  apply decode_slice_some in E. destruct E as [p [_ [Hl ->]]].
  apply calm_bind.
  { intros l w. rewrite exact_ok; [discriminate|]. rewrite xor_zip_length.
    destruct Hc as [_ [Hh _]]. cbn [fst compute_signatures]. rewrite Hh, app_length, repeat_length. lia. }
  intros ck. destruct (bytes_eqb _ _); [|apply calm_send_final].
  apply calm_bind; [apply calm_send_final|]. intros; apply calm_validate.
Qed.

Lemma keys_length {L} e a salt n (l : L) w k l' w' :
  crypto_ok e -> client_keys e a salt n l w = (Ok k, l', w') -> length (fst k) = hlen a.
Proof.
  intros [_ [Hh _]] H. unfold client_keys in H. cbv zeta in H. apply bind_ok in H.
  destruct H as [k1 [l1 [w1 [H1 H]]]].
  destruct k1 as [k1|].
  - injection H as -> _ _. apply maybe_need_with_ok in H1.
    destruct H1 as [[? _]|[v [cs1 [cs2 [w2 [r [_ [_ [E [_ [_ Hg]]]]]]]]]]]; [discriminate|].
    rewrite (Hg _ eq_refl) in E.
    destruct (Nat.eqb (length (ca_client_key v)) (hlen a)) eqn:E1; [|discriminate].
    destruct (Nat.eqb (length (ca_server_key v)) (hlen a)); [|discriminate].
    injection E as <- _ _. cbn [fst]. apply Nat.eqb_eq. exact E1.
  - apply bind_ok in H. destruct H as [k2 [l2 [w2 [H2 H]]]]. destruct k2 as [k2|].
    + injection H as -> _ _. apply maybe_need_with_ok in H2.
      destruct H2 as [[? _]|[v [cs1 [cs2 [w3 [r [_ [_ [E [_ [_ Hg]]]]]]]]]]]; [discriminate|].
      rewrite (Hg _ eq_refl) in E. destruct v; [discriminate|].
      injection E as <- _ _. apply Hh.
    + apply need_with_ok in H. destruct H as [v [cs1 [cs2 [w3 [_ [_ [E _]]]]]]].
      injection E as <- _ _. apply Hh.
Qed.

Lemma keys_panic {L} e a salt n (l : L) w l' w' :
  client_keys e a salt n l w = (Panic, l', w') ->
  exists evs c, did evs [] 0 w w' /\ In c (answers PScramCachedPassword evs) /\
    ~ (length (ca_client_key c) = hlen a /\ length (ca_server_key c) = hlen a).
Proof.
  intros H. unfold client_keys in H. cbv zeta in H. apply bind_panic in H.
  destruct H as [H|[k1 [l1 [w1 [_ H]]]]].
  - apply maybe_need_with_inv in H. inversion H; subst.
    + match goal with H : _ \/ _ |- _ => destruct H as [Hr|[? Hr]] end; discriminate.
    + match goal with H : _ \/ _ |- _ => destruct H as [Hr|[Hr|[? Hr]]] end; discriminate.
    + match goal with H : _ \/ _ |- _ => destruct H as [Hr|[? Hr]] end; discriminate.
    + match goal with H : (if ?b then _ else _) _ _ = _ |- _ => destruct b eqn:Eb; [discriminate|];
        injection H as <- <- end.
      eexists _, v. split; [apply did_events|]. split.
      * change (EvRequest PScramCachedPassword (scram_client_provider salt n) :: cs1 ++
          [EvAnswer PScramCachedPassword v]) with
          ([EvRequest PScramCachedPassword (scram_client_provider salt n)] ++ cs1 ++
          [EvAnswer PScramCachedPassword v]).
        rewrite !answers_app, answers_answer. apply in_or_app. right. apply in_or_app. right.
        left. reflexivity.
      * intros [A B]. rewrite A, B, Nat.eqb_refl in Eb. discriminate.
  - exfalso. revert H. destruct k1; [discriminate|].
    match goal with |- ?m l1 w1 = _ -> _ => assert (Hcalm : calm m) end.
    { apply calm_bind.
      - apply calm_maybe_need_with. intros [|]; [apply calm_fail|apply calm_ret].
      - intros [k|]; [apply calm_ret|]. apply calm_need_with. intros; apply calm_ret. }
    intros H. exact (calm_at _ _ _ _ _ Hcalm H).
Qed.

Lemma server_first_parse_calm_step e a ws m (l : option scram_cst) w l' w' :
  crypto_ok e -> handle_server_first e a ws m l w = (Panic, l', w') ->
  short_attribute m \/
  exists evs c, did evs [] 0 w w' /\ In c (answers PScramCachedPassword evs) /\
    ~ (length (ca_client_key c) = hlen a /\ length (ca_server_key c) = hlen a).
Proof.
  intros Hc H. unfold handle_server_first in H. apply bind_panic in H.
  destruct H as [H|[sf [l1 [w1 [Hp H]]]]].
  - left. apply server_first_panic. unfold scram_parse, of_res in H.
    destruct (server_first_parse m); cbn in H; congruence.
  - unfold scram_parse, of_res in Hp.
    assert (l1 = l /\ w1 = w) as [-> ->] by (split; congruence). clear Hp.
    destruct (strip_prefix _ _) as [[|b sn]|]; try discriminate.
    destruct (from_utf8 _) as [it|]; [|discriminate].
    destruct (parse_u32 it) as [n|]; [|discriminate].
    destruct (N.eqb n 0); [discriminate|].
    destruct (decode (sf_salt sf)) as [salt|]; [|discriminate].
    apply bind_panic in H. destruct H as [H|[k [l2 [w2 [Hk H]]]]].
    + right. exact (keys_panic _ _ _ _ _ _ _ _ H).
    + exfalso. apply (keys_length _ _ _ _ _ _ _ _ _ Hc) in Hk. cbv zeta in H.
      match type of H with bind (exact a ?x) _ _ _ = _ =>
        assert (Hx : length x = hlen a) end.
      { rewrite xor_zip_length, Hk. destruct Hc as [_ [Hh _]]. cbn [fst compute_signatures].
        rewrite Hh. apply Nat.min_id. }
      rewrite (bind_step _ _ _ _ _ _ _ (exact_ok a _ l2 w2 Hx)) in H.
      revert H.
      match goal with |- ?m l2 w2 = _ -> _ => assert (Hcalm : calm m) by (repeat calm_step) end.
      intros H. exact (calm_at _ _ _ _ _ Hcalm H).
Qed.

Lemma ignore_calm {L A} (m : M L A) : calm m -> calm (ignore m).
Proof. apply calm_ignore. Qed.

Lemma client_panic e a st input w l' w' :
  crypto_ok e -> scram_client_step e a input (Some st) w = (Panic, l', w') ->
  (exists m, input = Some m /\ stunted (XScramC a (Some st)) m) \/
  exists evs c, did evs [] 0 w w' /\ In c (answers PScramCachedPassword evs) /\
    ~ (length (ca_client_key c) = hlen a /\ length (ca_server_key c) = hlen a).
Proof.
  intros Hc H. unfold scram_client_step in H. unfold bind at 1, getl in H.
  unfold bind at 1, setl in H. destruct st as [plus|s|s].
  - exfalso. revert H.
    match goal with |- ?m _ w = _ -> _ => assert (Hcalm : calm m) end.
    { apply calm_bind; [apply calm_locally, client_first_calm|]. intros [x y].
      apply calm_bind; [intros l0 w0; discriminate|]. intros _. apply calm_ret. }
    intros H. exact (calm_at _ _ _ _ _ Hcalm H).
  - destruct input as [m|]; [|discriminate]. apply bind_panic in H.
    destruct H as [H|[s' [l1 [w1 [_ H]]]]]; [|discriminate].
    apply (server_first_parse_calm_step _ _ _ _ _ _ _ _ Hc) in H. destruct H as [H|H]; [|right; exact H].
    left. exists m. split; [reflexivity|exact H].
  - destruct input as [m|]; [|discriminate]. left. exists m. split; [reflexivity|].
    apply bind_panic in H. destruct H as [H|[s' [l1 [w1 [_ H]]]]]; [|discriminate].
    unfold handle_server_final in H. apply bind_panic in H.
    destruct H as [H|[sf [l1 [w1 [Hp H]]]]].
    + apply server_final_panic. unfold scram_parse, of_res in H.
      destruct (server_final_parse m); cbn in H; congruence.
    + exfalso. revert H. destruct sf; [|discriminate]. destruct (decode v); [|discriminate].
      destruct (bytes_eqb _ _); [|discriminate]. intros H.
      refine (calm_at _ _ _ _ _ _ H). apply calm_ignore, calm_action.
Qed.

Lemma server_panic e a st input w l' w' :
  crypto_ok e -> scram_server_step e a input (Some st) w = (Panic, l', w') ->
  exists m, input = Some m /\ stunted (XScramS a (Some st)) m.
Proof.
  intros Hc H. unfold scram_server_step in H. unfold bind at 1, getl in H.
  unfold bind at 1, setl in H. destruct st as [plus|d|].
  - destruct input as [m|]; [|discriminate]. exists m. split; [reflexivity|]. cbn [stunted].
    destruct (client_first_parse m) as [cf|x|] eqn:Ep; [exfalso|exfalso|apply client_first_panic; exact Ep];
    (revert H; match goal with |- ?m _ w = _ -> _ => assert (Hcalm : calm m) end;
      [apply calm_bind;
        [apply calm_locally, server_first_calm; rewrite Ep; discriminate|intros [y1 y2];
         apply calm_bind; [intros l0 w0; discriminate|intros _; apply calm_ret]]
      |intros H; exact (calm_at _ _ _ _ _ Hcalm H)]).
  - destruct input as [m|]; [|discriminate]. exists m. split; [reflexivity|]. cbn [stunted].
    destruct (client_final_parse m) as [cf|x|] eqn:Ep; [exfalso|exfalso|apply client_final_panic; exact Ep];
    (revert H; match goal with |- ?m _ w = _ -> _ => assert (Hcalm : calm m) end;
      [apply calm_bind;
        [apply server_final_calm; [exact Hc|rewrite Ep; discriminate]|intros [];
         apply calm_bind; [intros l0 w0; discriminate|intros _; apply calm_ret]]
      |intros H; exact (calm_at _ _ _ _ _ Hcalm H)]).
  - discriminate.
Qed.

Theorem only_stunted_panics e s input script out s' :
  crypto_ok e -> live (s_mech s) -> step e s input script = (Panic, out, s') ->
  (exists m, input = Some m /\ stunted (s_mech s) m) \/
  (exists a st, s_mech s = XScramC a st /\ bad_cached_keys a s s').
Proof.
  intros Hc Hl H. destruct (is_scram (s_mech s)) eqn:Es.
  - destruct (s_mech s) eqn:Em; try discriminate; destruct s0 as [st|]; try contradiction.
    + destruct (step_scram_client _ _ _ _ _ _ _ _ _ Em H) as [st1 [w' [Hs [-> ->]]]].
      destruct (client_panic _ _ _ _ _ _ _ Hc Hs) as [K|[evs [c [D [Hi Hn]]]]]; [left; exact K|].
      right. exists a, (Some st). split; [reflexivity|]. exists evs, c. split; [|split; assumption].
      destruct D as [D _]. exact D.
    + left. destruct (step_scram_server _ _ _ _ _ _ _ _ _ Em H) as [st1 [w' [Hs [-> ->]]]].
      exact (server_panic _ _ _ _ _ _ _ Hc Hs).
  - exfalso. unfold step, run in H.
    pose proof (step_calm e input (s_mech s) (mk_world [] script (s_trace s) (s_rng s) (s_val s)) Es) as K.
    destruct (mech_step _ _ _ _) as [[r m'] w']. cbn in K. congruence.
Qed.

Lemma on_live {L A} (wrap : L -> mech) l0 (m : M L A) l w r m' w' :
  on wrap l0 m l w = (r, m', w') -> exists l', m' = wrap l'.
Proof. unfold on. destruct (m l0 w) as [[r1 l1] w1]. intros [= <- <- <-]. eauto. Qed.
Theorem stays_live e s input script out s' :
  step e s input script = (Ok Running, out, s') -> live (s_mech s').
Proof.
  intros H. destruct (is_scram (s_mech s)) eqn:Es.
  - destruct (s_mech s) eqn:Em; try discriminate.
    + destruct (step_scram_client _ _ _ _ _ _ _ _ _ Em H) as [st1 [w' [Hs [-> ->]]]]. cbn.
      destruct st1; [exact I|]. unfold scram_client_step in Hs.
      unfold bind at 1, getl in Hs. unfold bind at 1, setl in Hs.
      destruct s0 as [[plus|x|x]|]; [| | |discriminate].
      * inv_bind Hs. destruct a0. discriminate.
      * destruct input; [|discriminate]. inv_bind Hs. discriminate.
      * destruct input; [|discriminate]. inv_bind Hs. discriminate.
    + destruct (step_scram_server _ _ _ _ _ _ _ _ _ Em H) as [st1 [w' [Hs [-> ->]]]]. cbn.
      destruct st1; [exact I|]. unfold scram_server_step in Hs.
      unfold bind at 1, getl in Hs. unfold bind at 1, setl in Hs.
      destruct s0 as [[plus|x|]|]; [| |discriminate|discriminate].
      * destruct input; [|discriminate]. inv_bind Hs. destruct a0. discriminate.
      * destruct input; [|discriminate]. inv_bind Hs. discriminate.
  - unfold step in H. apply run_ok in H. destruct H as [m' [w' [H [-> ->]]]].
    unfold mech_step, bind, getl in H. cbn [s_mech].
    destruct (s_mech s); try discriminate Es; apply on_live in H; destruct H as [l' ->]; exact I.
Qed.

(** * Nonces *)

Lemma printable_nodup : NoDup printable.
Proof.
  assert (H : (fix go (l : bytes) := match l with [] => true
    | x :: r => negb (contains x r) && go r end) printable = true) by (vm_compute; reflexivity).
  revert H. generalize printable. intros l. induction l as [|x r IH]; intros H; constructor.
  - apply andb_prop in H. destruct H as [H _]. intros Hi. apply negb_true_iff in H.
    assert (contains x r = true); [|congruence]. clear -Hi. unfold contains.
    apply existsb_exists. exists x. split; [exact Hi|]. apply beq_refl.
  - apply IH. apply andb_prop in H. apply H.
Qed.
Lemma pick_inj x y : pick x = pick y ->
  N.modulo x (N.of_nat (length printable)) = N.modulo y (N.of_nat (length printable)).
Proof.
  intros H. unfold pick in H.
  assert (Hn : N.of_nat (length printable) <> 0%N) by (vm_compute; discriminate).
  pose proof (N.mod_upper_bound x _ Hn) as Hx. pose proof (N.mod_upper_bound y _ Hn) as Hy.
  revert Hx Hy H. generalize (N.modulo x (N.of_nat (length printable))), (N.modulo y (N.of_nat (length printable))).
  intros i j Hi Hj H.
  apply (proj1 (NoDup_nth printable zero) printable_nodup) in H; lia.
Qed.
Theorem nonce_from_inj e n e' n' :
  nonce_from e n = nonce_from e' n' ->
  forall k, k < 24 -> N.modulo (e_rng e (n + k)) 88 = N.modulo (e_rng e' (n' + k)) 88.
Proof.
  unfold nonce_from. intros H k Hk.
  assert (Hp : pick (e_rng e (n + k)) = pick (e_rng e' (n' + k))).
  { assert (A : forall e n, nth k (map (fun j => pick (e_rng e j)) (seq n 24)) (pick (e_rng e 0)) = pick (e_rng e (n + k))).
    { intros e0 n0. rewrite (map_nth (fun j => pick (e_rng e0 j)) (seq n0 24) 0 k).
      rewrite seq_nth by exact Hk. reflexivity. }
    rewrite <- A, <- (A e' n'), H. apply nth_indep. rewrite map_length, seq_length. exact Hk. }
  apply pick_inj in Hp. exact Hp.
Qed.
