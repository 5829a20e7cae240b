(** Lemmas for C86: what an OAUTHBEARER server reads. *)
From Coq Require Import Lia ZArith ZifyN ZifyBool.
From Verif Require Import Bytes BytesFacts Utf8 Types World CallbackSpec MonadFacts Calm Simple OAuth ScramParser Session Spec_Simple Spec_OAuth
  Spec_Wire Spec_ScramText Spec_Grammar Spec_Bearer Proof_Utf8 Proof_OAuth Proof_ScramText Proof_Grammar.

Lemma join_pairs h pairs : join soh (h :: map kv_part pairs) = h ++ concat (map kv_text pairs).
Proof.
  revert h. induction pairs as [|p pairs IH]; intros h.
  - cbn. rewrite app_nil_r. reflexivity.
  - cbn [map concat]. change (join soh (h :: kv_part p :: map kv_part pairs)) with
      (h ++ soh :: join soh (kv_part p :: map kv_part pairs)). rewrite IH. reflexivity.
Qed.

(** The pairs, one after the other. *)
Definition pair_reads (p : bytes * bytes) : Prop :=
  free "="%char (fst p) /\ utf8_valid (fst p) = true /\ utf8_valid (snd p) = true /\
  (fst p <> lit "auth" -> free "="%char (snd p)).
Definition last_or (t : option bytes) (l : list bytes) : option bytes :=
  fold_left (fun _ x => Some x) l t.

Lemma part_auth t : lit "auth=" ++ t = kv_part (lit "auth", t).
Proof. reflexivity. Qed.
Lemma is_auth_spec k v : is_auth (k, v) = true <-> k = lit "auth".
Proof. unfold is_auth. cbn [fst]. apply bytes_eqb_eq. Qed.

Lemma fields_exact parts : forall tok acc tok' fs,
  ob_fields parts tok acc = Ok (tok', fs) <->
  exists pairs, parts = map kv_part pairs /\ Forall pair_reads pairs /\
    tok' = last_or tok (tokens pairs) /\ fs = acc ++ others pairs.
Proof.
  induction parts as [|kv parts IH]; intros tok acc tok' fs.
  - split.
    + intros [= <- <-]. exists []. split; [reflexivity|]. split; [constructor|]. split; [reflexivity|].
      symmetry. apply app_nil_r.
    + intros ([|p pairs] & E & _ & -> & ->); [|discriminate]. cbn. rewrite app_nil_r. reflexivity.
  - cbn [ob_fields]. split.
    + destruct (strip_prefix (lit "auth=") kv) as [t|] eqn:S.
      * apply strip_prefix_iff in S. subst kv. unfold utf8_or.
        destruct (from_utf8 t) as [t'|] eqn:U; [|discriminate]. apply from_utf8_some in U. destruct U as [U ->].
        intros H. apply IH in H. destruct H as (pairs & -> & F & -> & ->). exists ((lit "auth", t) :: pairs).
        split; [reflexivity|]. split; [|split; reflexivity]. constructor; [|exact F].
        split; [intros H; cbn in H; repeat destruct H as [H|H]; try discriminate H; exact H|]. split; [reflexivity|]. split; [exact U|]. intros N. elim N. reflexivity.
      * destruct (split is_equals kv) as [|key [|val [|]]] eqn:E; try discriminate.
        apply (split_iff is_equals equals) in E; [|apply equals_sep]. destruct E as (_ & Fr & Ek).
        inversion Fr as [|? ? F1 Fr']; subst. inversion Fr' as [|? ? F2 _]; subst.
        unfold utf8_or. destruct (from_utf8 key) as [k'|] eqn:U1; [|discriminate]. apply from_utf8_some in U1. destruct U1 as [U1 ->].
        destruct (from_utf8 val) as [v'|] eqn:U2; [|discriminate]. apply from_utf8_some in U2. destruct U2 as [U2 ->].
        intros H. apply IH in H. destruct H as (pairs & -> & F & -> & ->). exists ((key, val) :: pairs).
        assert (A : is_auth (key, val) = false).
        { destruct (is_auth (key, val)) eqn:A; [|reflexivity]. apply is_auth_spec in A. subst key. exfalso.
          rewrite strip_prefix_none in S. apply (S val). reflexivity. }
        split; [reflexivity|]. split; [constructor; [|exact F]; split; [exact F1|]; split; [exact U1|]; split; [exact U2|];
          intros _; exact F2|].
        unfold tokens, others. cbn [filter]. rewrite A. cbn [negb].
        split; [reflexivity|]. rewrite <- app_assoc. reflexivity.
    + intros ([|[k v] pairs] & E & F & -> & ->); [discriminate|]. injection E as -> ->.
      inversion F as [|? ? (F1 & U1 & U2 & F2) F']; subst. cbn [fst snd] in *.
      destruct (is_auth (k, v)) eqn:A.
      * pose proof (proj1 (is_auth_spec k v) A) as ->. change (kv_part (lit "auth", v)) with (lit "auth=" ++ v).
        rewrite strip_prefix_app. unfold utf8_or. rewrite (from_utf8_valid v U2). apply IH.
        exists pairs. repeat split; auto.
      * assert (N : k <> lit "auth") by (intros N; apply is_auth_spec with (v := v) in N; congruence).
        unfold kv_part. cbn [fst snd].
        rewrite not_auth by assumption.
        rewrite split_app_sep with (c := equals); [|apply equals_sep|exact F1].
        rewrite split_nosep with (c := equals); [|apply equals_sep|exact (F2 N)].
        unfold utf8_or. rewrite !from_utf8_valid by assumption. apply IH. exists pairs.
        split; [reflexivity|]. split; [exact F'|]. unfold tokens, others. cbn [filter]. rewrite A. cbn [negb].
        split; [reflexivity|]. rewrite <- app_assoc. reflexivity.
Qed.

Lemma lit_free (c : byte) x : forallb (fun b => negb (Ascii.eqb b c)) x = true -> free c x.
Proof. intros H K. rewrite forallb_forall in H. specialize (H _ K). rewrite Ascii.eqb_refl in H. discriminate. Qed.
Lemma free_app c x y : free c (x ++ y) <-> free c x /\ free c y.
Proof. unfold free. rewrite in_app_iff. tauto. Qed.

Definition authz_part (z : option bytes) : bytes := match z with Some z => lit "a=" ++ z | None => [] end.

Lemma header_exact h z : free soh h ->
  (exists za rest, split is_comma h = lit "n" :: za :: rest /\
     match za with
     | [] => Ok None
     | _ => match strip_prefix (lit "a=") za with
            | Some rem => utf8_or rem (fun s => Ok (Some s))
            | None => Err ObInvalidGs2
            end
     end = Ok z) <-> readable_header h z.
Proof.
  intros Fh. split.
  - intros (za & rest & E & H).
    apply csplit_cons in E. destruct E as [_ [[E _]|(r & _ & -> & E)]]; [discriminate|].
    apply csplit_tail in E. destruct E as (t & -> & T & Fc).
    change (lit "n" ++ ","%char :: za ++ t) with (lit "n," ++ za ++ t) in *.
    apply free_app in Fh. destruct Fh as [_ Fh]. apply free_app in Fh. destruct Fh as [Fz Ft].
    exists t. destruct za as [|x za].
    + injection H as <-. auto.
    + destruct (strip_prefix (lit "a=") (x :: za)) as [rem|] eqn:S; [|discriminate]. apply strip_prefix_iff in S.
      unfold utf8_or in H. destruct (from_utf8 rem) as [y|] eqn:U; [|discriminate]. apply from_utf8_some in U.
      destruct U as [U ->]. injection H as <-. rewrite S in *.
      split; [reflexivity|]. split; [exact T|]. split; [exact Ft|].
      apply free_app in Fc, Fz. split; [apply Fc|]. split; [apply Fz|exact U].
  - intros (t & -> & T & Ft & Hz). exists (authz_part z).
    assert (Fc : free ","%char (authz_part z)).
    { destruct z as [z|]; [|easy]. apply free_attr; [discriminate|discriminate|apply Hz]. }
    destruct (csplit_with_tail (authz_part z) t Fc T) as [rest E]. exists rest. split.
    + change (split is_comma (lit "n" ++ ","%char :: authz_part z ++ t) = lit "n" :: authz_part z :: rest).
      rewrite csplit_app by (apply lit_free; reflexivity). rewrite E. reflexivity.
    + destruct z as [z|]; [|reflexivity]. destruct Hz as (_ & _ & U).
      change (match strip_prefix (lit "a=") (lit "a=" ++ z) with
              | Some rem => utf8_or rem (fun s => Ok (Some s)) | None => Err ObInvalidGs2 end = Ok (Some z)).
      rewrite strip_prefix_app. unfold utf8_or. rewrite (from_utf8_valid z U). reflexivity.
Qed.

Lemma pair_split p : readable_pair p <-> pair_reads p /\ free soh (kv_part p).
Proof.
  unfold readable_pair, pair_reads, kv_part. rewrite free_app. split.
  - intros (A & B & C & D & E & F). split; [auto|]. split; [exact A|]. intros [K|K]; [discriminate|exact (B K)].
  - intros ((C & D & E & F) & A & B). split; [exact A|]. split; [|auto]. intros K. apply B. right. exact K.
Qed.

Lemma last_token l : forall t, last_or t l = match rev l with x :: _ => Some x | [] => t end.
Proof.
  induction l as [|x l IH] using rev_ind; intros t; [reflexivity|].
  unfold last_or. rewrite fold_left_app, rev_app_distr. reflexivity.
Qed.

Theorem bearer_exact m z t fields :
  ob_parse m = Ok (mk_obmsg z t fields) <->
  exists h pairs, m = h ++ concat (map kv_text pairs) ++ [chr 1; chr 1] /\ readable_header h z /\
    Forall readable_pair pairs /\ hd_error (rev (tokens pairs)) = Some t /\ fields = others pairs.
Proof.
  unfold ob_parse. split.
  - destruct (strip_suffix soh2 m) as [b|] eqn:S; [|discriminate]. apply strip_suffix_iff in S. subst m.
    destruct (split is_soh b) as [|h parts] eqn:E; [discriminate|].
    apply (split_iff is_soh soh) in E; [|apply soh_sep]. destruct E as (_ & Fr & ->).
    inversion Fr as [|? ? Fh Fp]; subst. intros H.
    destruct (split is_comma h) as [|f rest] eqn:C; [discriminate|].
    destruct (bytes_eqb f (lit "n")) eqn:Ef; [|discriminate]. apply bytes_eqb_eq in Ef. subst f. cbn [negb] in H.
    destruct rest as [|za rest]; [discriminate|].
    match type of H with rbind ?a _ = _ => destruct a as [z'|x|] eqn:Ez end; try discriminate. cbn [rbind] in H.
    destruct (ob_fields parts None []) as [[tok fs]|x|] eqn:Fs; try discriminate. cbn [rbind fst snd] in H.
    destruct tok as [tok|]; [|discriminate]. injection H as -> -> ->.
    apply fields_exact in Fs. destruct Fs as (pairs & -> & P & L & ->).
    exists h, pairs. rewrite join_pairs, <- app_assoc. split; [reflexivity|].
    split; [apply header_exact; [exact Fh|exists za, rest; auto]|].
    split.
    { rewrite Forall_forall in *. intros p Hp. apply pair_split. split; [exact (P p Hp)|]. apply Fp, in_map, Hp. }
    rewrite last_token in L. split; [|reflexivity]. destruct (rev (tokens pairs)); [discriminate|]. injection L as <-. reflexivity.
  - intros (h & pairs & -> & H & P & L & ->).
    assert (Fh : free soh h).
    { destruct H as (r & -> & _ & Fr & Hz). apply free_app. split; [apply lit_free; reflexivity|].
      apply free_app. split; [|exact Fr]. destruct z as [z|]; [|easy]. apply free_app.
      split; [apply lit_free; reflexivity|apply Hz]. }
    rewrite app_assoc. change [chr 1; chr 1] with soh2. rewrite strip_suffix_app.
    rewrite <- join_pairs. rewrite (proj2 (split_iff is_soh soh _ (h :: map kv_part pairs) soh_sep)).
    2:{ split; [discriminate|]. split; [|reflexivity]. constructor; [exact Fh|].
        rewrite Forall_forall in *. intros x Hx. apply in_map_iff in Hx. destruct Hx as (p & <- & Hp).
        apply (proj1 (pair_split p) (P p Hp)). }
    apply header_exact in H; [|exact Fh]. destruct H as (za & rest & -> & Hz).
    change (bytes_eqb (lit "n") (lit "n")) with true. cbn [negb]. rewrite Hz. cbn [rbind].
    assert (F : ob_fields (map kv_part pairs) None [] = Ok (Some t, others pairs)).
    { apply fields_exact. exists pairs. split; [reflexivity|]. split; [|split; [|reflexivity]].
      - revert P. apply Forall_impl. intros p Hp. apply (proj1 (pair_split p) Hp).
      - rewrite last_token. destruct (rev (tokens pairs)); [discriminate|]. injection L as <-. reflexivity. }
    rewrite F. reflexivity.
Qed.

(** The grammar. *)
Lemma below_valid x : Forall (fun b => (N_of_ascii b < 128)%N) x -> utf8_valid x = true.
Proof.
  intros H. apply utf8_ascii. rewrite forallb_forall. intros b Hb. rewrite Forall_forall in H. specialize (H b Hb).
  unfold is_ascii, in_range. apply andb_true_iff. split; apply N.leb_le; lia.
Qed.
Lemma value_ascii v : value_chars v -> utf8_valid v = true /\ free (chr 1) v.
Proof.
  intros H. split.
  - apply below_valid. revert H. apply Forall_impl. intros b [K|K]; [lia|]. cbn in K. repeat destruct K as [K|K]; lia.
  - intros K. unfold value_chars in H. rewrite Forall_forall in H. destruct (H _ K) as [J|J]; cbn in J; [lia|].
    repeat destruct J as [J|J]; try discriminate J; exact J.
Qed.
Lemma key_ascii k : key_text k -> utf8_valid k = true /\ free (chr 1) k /\ free "="%char k.
Proof.
  intros [_ H]. split; [|split].
  - apply below_valid. revert H. apply Forall_impl. intros b [K|K]; lia.
  - intros K. rewrite Forall_forall in H. destruct (H _ K) as [J|J]; cbn in J; lia.
  - intros K. rewrite Forall_forall in H. destruct (H _ K) as [J|J]; cbn in J; lia.
Qed.

Lemma others_in p pairs : In p (others pairs) <-> In p pairs /\ fst p <> lit "auth".
Proof.
  unfold others. rewrite filter_In. destruct p as [k v]. cbn [fst].
  destruct (is_auth (k, v)) eqn:A.
  - apply is_auth_spec in A. split; [intros [_ H]; discriminate|intros [_ H]; congruence].
  - split; intros [H K]; (split; [exact H|]); [|reflexivity]. intros N. apply is_auth_spec with (v := v) in N. congruence.
Qed.
Lemma response_header z : (forall x, z = Some x -> saslname x /\ free (chr 1) x) ->
  readable_header (gs2_text CbNotSupported z) z.
Proof.
  intros H. exists (lit ","). unfold gs2_text. split; [reflexivity|]. split; [right; eexists; reflexivity|].
  split; [apply lit_free; reflexivity|]. destruct z as [z|]; [|exact I].
  destruct (H z eq_refl) as [S F]. destruct (name_valid z S) as [U C]. auto.
Qed.

Lemma response_reads m z pairs t : is_response m z pairs -> tokens pairs = [t] ->
  (forall p, In p (others pairs) -> free "="%char (snd p)) ->
  ob_parse m = Ok (mk_obmsg z t (others pairs)).
Proof.
  intros (-> & Hz & P) T Q. apply bearer_exact. exists (gs2_text CbNotSupported z), pairs.
  split; [reflexivity|]. split; [apply response_header; exact Hz|]. split.
  { rewrite Forall_forall in *. intros p Hp. destruct (P p Hp) as [K V].
    destruct (key_ascii _ K) as (K1 & K2 & K3). destruct (value_ascii _ V) as (V1 & V2).
    split; [exact K2|]. split; [exact V2|]. split; [exact K3|]. split; [exact K1|]. split; [exact V1|].
    intros N. apply Q. apply others_in. auto. }
  rewrite T. split; reflexivity.
Qed.

Lemma fields_bad pairs : Forall (fun p => key_text (fst p) /\ value_chars (snd p)) pairs ->
  forall p, In p (others pairs) -> In "="%char (snd p) ->
  forall tok acc, ob_fields (map kv_part pairs) tok acc = Err ObInvalidKVPair.
Proof.
  induction 1 as [|[k v] pairs [K V] P IH]; intros p Hp E tok acc; [elim Hp|].
  cbn [fst snd] in K, V. destruct (key_ascii _ K) as (K1 & K2 & K3). destruct (value_ascii _ V) as (V1 & V2).
  apply others_in in Hp. destruct Hp as [[<-|Hp] N].
  - cbn [map ob_fields fst snd] in *. unfold kv_part. cbn [fst snd]. rewrite not_auth by assumption.
    rewrite split_app_sep with (c := equals); [|apply equals_sep|exact K3].
    destruct (split is_equals v) as [|x [|y r]] eqn:S; try reflexivity.
    exfalso. apply (split_iff is_equals equals) in S; [|apply equals_sep]. destruct S as (_ & F & ->).
    inversion F as [|? ? F1 _]; subst. exact (F1 E).
  - assert (J : In p (others pairs)) by (apply others_in; auto).
    cbn [map ob_fields]. change (kv_part (k, v)) with (k ++ equals :: v).
    destruct (is_auth (k, v)) eqn:A.
    + apply is_auth_spec in A. subst k. change (lit "auth" ++ equals :: v) with (lit "auth=" ++ v).
      rewrite strip_prefix_app. unfold utf8_or. rewrite (from_utf8_valid v V1). exact (IH p J E _ _).
    + rewrite not_auth; [|exact K3|intros Q; apply is_auth_spec with (v := v) in Q; congruence].
      rewrite split_app_sep with (c := equals); [|apply equals_sep|exact K3].
      destruct (split is_equals v) as [|x [|y r]] eqn:S; try reflexivity.
      apply (split_iff is_equals equals) in S; [|apply equals_sep]. destruct S as (_ & _ & S). cbn [join] in S. subst x.
      unfold utf8_or. rewrite (from_utf8_valid k K1), (from_utf8_valid v V1). exact (IH p J E _ _).
Qed.

Lemma response_refused m z pairs p : is_response m z pairs -> In p (others pairs) -> In "="%char (snd p) ->
  ob_parse m = Err ObInvalidKVPair.
Proof.
  intros (-> & Hz & P) Hp E. pose proof (response_header z Hz) as H.
  assert (Fh : free soh (gs2_text CbNotSupported z)).
  { destruct H as (r & -> & _ & Fr & Hz'). apply free_app. split; [apply lit_free; reflexivity|].
    apply free_app. split; [|exact Fr]. destruct z as [z|]; [|easy]. apply free_app.
    split; [apply lit_free; reflexivity|apply Hz']. }
  unfold ob_parse. rewrite app_assoc. change [chr 1; chr 1] with soh2. rewrite strip_suffix_app.
  rewrite <- join_pairs. rewrite (proj2 (split_iff is_soh soh _ (gs2_text CbNotSupported z :: map kv_part pairs) soh_sep)).
  2:{ split; [discriminate|]. split; [|reflexivity]. constructor; [exact Fh|].
      rewrite Forall_forall in *. intros x Hx. apply in_map_iff in Hx. destruct Hx as (q & <- & Hq).
      destruct (P q Hq) as [K V]. destruct (key_ascii _ K) as (_ & K2 & _). destruct (value_ascii _ V) as (_ & V2).
      unfold kv_part. intros J. apply in_app_iff in J. destruct J as [J|[J|J]]; [exact (K2 J)|discriminate J|exact (V2 J)]. }
  apply header_exact in H; [|exact Fh]. destruct H as (za & rest & -> & H).
  change (bytes_eqb (lit "n") (lit "n")) with true. cbn [negb]. rewrite H. cbn [rbind].
  rewrite (fields_bad pairs P p Hp E). reflexivity.
Qed.

(** The sessions. *)
Theorem response_consulted e s m z pairs t script r out s' :
  s_mech s = XOAuthBearerS OsInitial -> is_response m z pairs -> tokens pairs = [t] ->
  (forall p, In p (others pairs) -> free "="%char (snd p)) ->
  step e s (Some m) script = (r, out, s') ->
  exists evs, new_events s s' evs /\
    consulted evs POAuthBearerValidate (fun c => offers_oauthbearer c z t (others pairs)).
Proof.
  intros Hm G T Q H. pose proof (response_reads m z pairs t G T Q) as R.
  apply run_ok in H. destruct H as [m' [w' [H [-> ->]]]]. rewrite Hm in H.
  unfold mech_step, bind at 1, getl in H. apply on_eq in H. destruct H as [l' [H _]].
  rewrite oauthbearer_server_verdict, R in H.
  apply verdict_consulted in H; [|intros; apply quiet_write_json].
  destruct H as [evs [K [c [rest [-> [-> Hc]]]]]]. eexists. split; [exact K|].
  eexists; eexists. split; [reflexivity|]. split; [apply oauthbearer_provider_offers|exact Hc].
Qed.
Theorem equals_refused e s m z pairs p script :
  s_mech s = XOAuthBearerS OsInitial -> is_response m z pairs -> In p (others pairs) -> In "="%char (snd p) ->
  exists s', step e s (Some m) script = (Err (EMech (MOAuthBearerParse ObInvalidKVPair)), [], s') /\
    s_trace s' = s_trace s.
Proof.
  intros Hm G Hp E. pose proof (response_refused m z pairs p G Hp E) as R.
  unfold step, run. rewrite Hm. unfold mech_step, bind at 1, getl, on. rewrite oauthbearer_server_verdict, R.
  eexists. split; reflexivity.
Qed.

Theorem bearer_step e s m script r out s' :
  s_mech s = XOAuthBearerS OsInitial -> step e s (Some m) script = (r, out, s') ->
  exists evs, new_events s s' evs /\
    ((exists z t pairs, readable m z t pairs /\
        consulted evs POAuthBearerValidate (fun c => offers_oauthbearer c z t (others pairs))) \/
     (evs = [] /\ out = [] /\ (exists x, r = Err (EMech (MOAuthBearerParse x))) /\
      forall z t pairs, ~ readable m z t pairs)).
Proof.
  intros Hm H. apply run_ok in H. destruct H as [m' [w' [H [-> ->]]]]. rewrite Hm in H.
  unfold mech_step, bind at 1, getl in H. apply on_eq in H. destruct H as [l' [H _]].
  rewrite oauthbearer_server_verdict in H. destruct (ob_parse m) as [[z t fields]|x|] eqn:E.
  - apply verdict_consulted in H; [|intros; apply quiet_write_json].
    destruct H as [evs [K [c [rest [-> [-> Hc]]]]]]. eexists. split; [exact K|]. left.
    apply bearer_exact in E. destruct E as (h & pairs & E1 & E2 & E3 & E4 & ->).
    exists z, t, pairs. split; [exists h; auto|].
    eexists; eexists. split; [reflexivity|]. split; [apply oauthbearer_provider_offers|exact Hc].
  - injection H as <- <- <-. exists []. split; [unfold new_events; symmetry; apply app_nil_r|]. right.
    split; [reflexivity|]. split; [reflexivity|]. split; [eexists; reflexivity|].
    intros z t pairs (h & H1 & H2 & H3 & H4).
    assert (J : ob_parse m = Ok (mk_obmsg z t (others pairs))) by (apply bearer_exact; exists h, pairs; auto).
    congruence.
  - injection H as <- <- <-. exfalso. exact (ob_parse_calm m E).
Qed.

(** * XOAUTH2 *)

Lemma xoauth2_exact m u t : xoauth2_parse m = Ok (u, t) <->
  m = xoauth2_message u t /\ free (chr 1) u /\ utf8_valid u = true /\ utf8_valid t = true.
Proof.
  split.
  - unfold xoauth2_parse. destruct (split_at_byte soh m) as [[a b]|] eqn:S; [|discriminate].
    apply split_at_byte_some in S. destruct S as (F & -> & _).
    destruct (strip_prefix (lit "user=") a) as [x|] eqn:A; [|discriminate]. apply strip_prefix_iff in A. subst a.
    destruct (strip_prefix xo_auth b) as [y|] eqn:B; [|discriminate]. apply strip_prefix_iff in B. subst b.
    destruct (strip_suffix soh2 y) as [k|] eqn:C; [|discriminate]. apply strip_suffix_iff in C. subst y.
    destruct (from_utf8 x) as [x'|] eqn:U; [|discriminate]. apply from_utf8_some in U. destruct U as [U ->].
    destruct (from_utf8 k) as [k'|] eqn:V; [|discriminate]. apply from_utf8_some in V. destruct V as [V ->].
    intros [= -> ->]. split; [unfold xoauth2_message; rewrite <- app_assoc; reflexivity|].
    split; [|auto]. intros K. apply F. apply in_app_iff. right. exact K.
  - intros (-> & F & U & V). apply xoauth2_parse_message; assumption.
Qed.

Theorem xoauth2_step e s m script r out s' :
  s_mech s = XXOAuth2S OsInitial -> step e s (Some m) script = (r, out, s') ->
  exists evs, new_events s s' evs /\
    ((exists u t, m = xoauth2_message u t /\ free (chr 1) u /\ utf8_text u /\ utf8_text t /\
        consulted evs PXOAuth2Validate (fun c => offers_xoauth2 c u t)) \/
     (evs = [] /\ out = [] /\ (exists x, r = Err (EMech x)) /\
      forall u t, m = xoauth2_message u t -> free (chr 1) u -> utf8_text u -> utf8_text t -> False)).
Proof.
  intros Hm H. apply run_ok in H. destruct H as [m' [w' [H [-> ->]]]]. rewrite Hm in H.
  unfold mech_step, bind at 1, getl in H. apply on_eq in H. destruct H as [l' [H _]].
  rewrite xoauth2_server_verdict in H. destruct (xoauth2_parse m) as [[u t]|x|] eqn:E.
  - apply verdict_consulted in H; [|apply quiet_write_all].
    destruct H as [evs [K [c [rest [-> [-> Hc]]]]]]. eexists. split; [exact K|]. left.
    apply xoauth2_exact in E. destruct E as (E1 & E2 & E3 & E4).
    exists u, t. split; [exact E1|]. split; [exact E2|]. rewrite <- !utf8_exact. split; [exact E3|]. split; [exact E4|].
    eexists; eexists. split; [reflexivity|]. split; [apply xoauth2_provider_offers|exact Hc].
  - injection H as <- <- <-. exists []. split; [unfold new_events; symmetry; apply app_nil_r|]. right.
    split; [reflexivity|]. split; [reflexivity|]. split; [eexists; reflexivity|].
    intros u t H1 H2 H3 H4. apply utf8_exact in H3, H4.
    pose proof (proj2 (xoauth2_exact m u t) (conj H1 (conj H2 (conj H3 H4)))). congruence.
  - exfalso. revert E. apply xoauth2_parse_calm.
Qed.

(** Deciding whether pairs are of the grammar. *)
Definition pair_ok (p : bytes * bytes) : bool :=
  match fst p with [] => false | _ => true end &&
  forallb (fun b => in_range 65 90 b || in_range 97 122 b) (fst p) &&
  forallb (fun b => in_range 32 126 b || in_range 9 10 b || in_range 13 13 b) (snd p).
Lemma pairs_ok pairs : forallb pair_ok pairs = true ->
  Forall (fun p => key_text (fst p) /\ value_chars (snd p)) pairs.
Proof.
  intros H. rewrite forallb_forall in H. apply Forall_forall. intros [k v] Hp. specialize (H _ Hp).
  unfold pair_ok in H. cbn [fst snd] in *. apply andb_true_iff in H. destruct H as [H V].
  apply andb_true_iff in H. destruct H as [N K]. rewrite forallb_forall in K, V.
  split.
  - split; [destruct k; discriminate|]. apply Forall_forall. intros b Hb. specialize (K b Hb).
    unfold in_range in K. unfold letter. lia.
  - apply Forall_forall. intros b Hb. specialize (V b Hb). unfold in_range in V. cbn [In]. lia.
Qed.
