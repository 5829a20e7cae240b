(** Proofs for C114. *)
From Coq Require Import Lia ZArith ZifyN ZifyBool.
From Verif Require Import Bytes BytesFacts Utf8 Num Types World CallbackSpec WorldFacts MonadFacts Simple OAuth
  ScramParser Scram Gssapi Session Mechname Frame Spec_Simple Spec_Errors Display Spec_Display
  Spec_ScramText Proof_ScramText Proof_Errors Proof_ScramPanic.
Open Scope m_scope.

(** * Texts *)

Lemma printable_app a b : printable a -> printable b -> printable (a ++ b).
Proof. intros A B. apply Forall_app. split; assumption. Qed.

Definition printable_b (t : bytes) : bool := forallb (in_range 32 126) t.
Lemma printable_dec t : printable_b t = true -> printable t.
Proof.
  intros H. apply Forall_forall. intros b Hb. unfold printable_b in H.
  rewrite forallb_forall in H. specialize (H b Hb). unfold in_range in H. lia.
Qed.
Ltac fixed_text := apply printable_dec; vm_compute; reflexivity.

Lemma digit_printable n : (n < 10)%N -> (32 <= N_of_ascii (digit n) <= 126)%N.
Proof. intros H. unfold digit. rewrite N_ascii_embedding; lia. Qed.
Lemma fmt_fuel_printable f : forall n acc, printable acc -> printable (fmt_fuel f n acc).
Proof.
  induction f as [|f IH]; intros n acc H; [exact H|]. cbn [fmt_fuel].
  assert (A : printable (digit (n mod 10) :: acc)).
  { constructor; [|exact H]. apply digit_printable. apply N.mod_lt. discriminate. }
  destruct (N.ltb n 10); [exact A|]. apply IH, A.
Qed.
Lemma fmt_printable n : printable (fmt_u32 n).
Proof. apply fmt_fuel_printable. constructor. Qed.
Lemma hex_printable b : printable (fmt_hex b).
Proof. destruct b as [[] [] [] [] [] [] [] []]; fixed_text. Qed.
Lemma utf8_printable t : utf8_shows t -> printable t.
Proof.
  intros [[n [i ->]]|[i ->]]; repeat apply printable_app; try apply fmt_printable; fixed_text.
Qed.

Ltac shown_text := repeat first
  [apply hex_printable | apply fmt_printable | apply utf8_printable; assumption | fixed_text | apply printable_app].

Lemma mech_printable T x t : printable_texts T -> mech_shows T x t -> printable t.
Proof.
  intros [_ [P G]] H.
  destruct x as [x| | | | | |x| |x|x|x| | |x| | |]; cbn [mech_shows] in H;
    try (subst t; fixed_text).
  - destruct x; cbn [plain_shows] in H; try (subst t; fixed_text);
      destruct H as [u [U ->]]; [shown_text|shown_text|].
    apply printable_app; [fixed_text|apply P, U].
  - shown_text.
  - destruct H as [H|[H|H]]; subst t; fixed_text.
  - subst t. destruct x; fixed_text.
  - destruct H as [u [U ->]]. apply printable_app; [fixed_text|].
    destruct x; cbn [parse_shows] in U; try (subst u; shown_text).
    destruct U as [v [V ->]]. shown_text.
  - subst t. destruct x; fixed_text.
  - destruct x; cbn [name_shows] in H; try (subst t; unfold fmt_u8; shown_text).
    destruct H as [u [U ->]]. shown_text.
  - destruct H as [u [U ->]]. apply printable_app; [fixed_text|apply G, U].
Qed.

Lemma text_printable T x t : printable_texts T -> shows T x t ->
  (forall name, x = EMissingChannelBindingData name -> printable name) -> printable t.
Proof.
  intros P H N. destruct x as [y| | | | |y| |p| |y|n| | |name]; cbn [shows] in H; try (subst t; fixed_text).
  - destruct H as [u [U ->]]. apply printable_app; [fixed_text|]. exact (mech_printable T y u P U).
  - destruct P as [P _]. exact (P n t H).
  - subst t. apply printable_app; [fixed_text|]. apply printable_app; [|fixed_text]. apply N. reflexivity.
Qed.

Lemma mn_printable x : printable (mn_text x).
Proof. destruct x; cbn [mn_text]; shown_text. Qed.

(** * Names of channel bindings *)

Definition chans (ok : bytes -> Prop) (w w' : world) : Prop :=
  exists evs, w_trace w' = w_trace w ++ evs /\ forall n, In (EvChan n) evs -> ok n.

Lemma chans_frame ok : frame (chans ok).
Proof.
  split.
  - intros w. exists []. rewrite app_nil_r. split; [reflexivity|intros n []].
  - intros a b c [x [E Hx]] [y [K Hy]]. exists (x ++ y).
    split; [rewrite K, E, app_assoc; reflexivity|]. intros n Hn. apply in_app_iff in Hn. destruct Hn; auto.
Qed.
Lemma chans_admits (ok : bytes -> Prop) ev : (forall n, ev = EvChan n -> ok n) -> admits (chans ok) ev.
Proof.
  intros H w. exists [ev]. split; [reflexivity|]. intros n [Hn|[]]. apply H, Hn.
Qed.
Lemma chans_asks ok q : asks (chans ok) q.
Proof. repeat split; intros; apply chans_admits; intros; discriminate. Qed.
Lemma chans_writes ok : writes (chans ok).
Proof.
  intros p w w' H. exists []. rewrite app_nil_r. split; [apply (wrote_trace _ _ _ H)|intros n []].
Qed.
Lemma chans_draws ok : draws_ok (chans ok).
Proof. intros w. exists []. cbn. rewrite app_nil_r. split; [reflexivity|intros n []]. Qed.
Lemma chans_validate {L} ok e c : keeps (chans ok) (@validate L e c).
Proof.
  intros l w. unfold validate. destruct (run_validate _ _ _) as [[x|] slot];
    exists [EvValidate c]; (split; [reflexivity|]); intros n [H|[]]; discriminate.
Qed.
Lemma chans_chan (ok : bytes -> Prop) n : ok n -> admits (chans ok) (EvChan n).
Proof. intros H. apply chans_admits. intros m [= <-]. exact H. Qed.
Lemma chans_maybe_data {L G} (ok : bytes -> Prop) e name c (f : bytes -> M L G) :
  ok name -> (forall v, keeps (chans ok) (f v)) -> keeps (chans ok) (maybe_need_cb_data e name c f).
Proof.
  intros Hn Hf. pose proof (chans_frame ok) as F. unfold maybe_need_cb_data.
  apply (keeps_bind _ F); [apply keeps_log, chans_chan, Hn|]. intros _. destruct (e_chan e name).
  - apply (keeps_bind _ F); [apply Hf|]. intros. apply (keeps_ret _ F).
  - apply (keeps_maybe_need_with _ F); [apply chans_asks|exact Hf].
Qed.
Lemma chans_need_data {L G} (ok : bytes -> Prop) e name c (f : bytes -> M L G) :
  ok name -> (forall v, keeps (chans ok) (f v)) -> keeps (chans ok) (need_cb_data e name c f).
Proof.
  intros Hn Hf. pose proof (chans_frame ok) as F. unfold need_cb_data.
  apply (keeps_bind _ F); [apply chans_maybe_data; assumption|].
  intros [g|]; [apply (keeps_ret _ F)|apply (keeps_fail _ F)].
Qed.
Ltac chan_step F :=
  lazymatch goal with
  | |- keeps _ (maybe_need_cb_data _ _ _ _) => apply chans_maybe_data; [|intros ?]
  | |- keeps _ (need_cb_data _ _ _ _) => apply chans_need_data; [|intros ?]
  | _ => keep_step F
  end.
Ltac chan F :=
  repeat (first
    [ chan_step F | apply chans_validate | apply chans_asks | apply chans_writes | apply chans_draws
    | intros; apply chans_chan | apply chans_admits; intros; discriminate ]).

(** No step but the first one of SCRAM asks for channel binding data. *)
Definition may_bind (m : mech) : Prop :=
  match m with XScramC _ (Some (ScInitial _)) | XScramS _ (Some (SsClientFirst _)) => True | _ => False end.


Lemma on_chans {L A} ok (wrap : L -> mech) l (m : M L A) x w :
  match m l w with (_, _, w') => chans ok w w' end ->
  match on wrap l m x w with (_, _, w') => chans ok w w' end.
Proof. unfold on. destruct (m l w) as [[r1 l1] w1]. auto. Qed.

Lemma scram_client_chans e a input x w : (forall plus, x <> Some (ScInitial plus)) ->
  match scram_client_step e a input x w with (_, _, w') => chans (fun _ => False) w w' end.
Proof.
  intros H. pose proof (chans_frame (fun _ => False)) as F.
  unfold scram_client_step, bind at 1, getl at 1, bind at 1, setl at 1.
  match goal with |- match ?m None w with _ => _ end =>
    assert (K : keeps (chans (fun _ => False)) m); [|exact (K None w)] end.
  destruct x as [[p|s|s]|]; [destruct (H p); reflexivity|..]; unfold_steps; chan F.
Qed.
Lemma scram_server_chans e a input x w : (forall plus, x <> Some (SsClientFirst plus)) ->
  match scram_server_step e a input x w with (_, _, w') => chans (fun _ => False) w w' end.
Proof.
  intros H. pose proof (chans_frame (fun _ => False)) as F.
  unfold scram_server_step, bind at 1, getl at 1, bind at 1, setl at 1.
  match goal with |- match ?m None w with _ => _ end =>
    assert (K : keeps (chans (fun _ => False)) m); [|exact (K None w)] end.
  destruct x as [[p|d|]|]; [destruct (H p); reflexivity|..]; unfold_steps; chan F.
Qed.

Lemma elsewhere_chans e input m w : ~ may_bind m ->
  match mech_step e input m w with (_, _, w') => chans (fun _ => False) w w' end.
Proof.
  intros H. pose proof (chans_frame (fun _ => False)) as F.
  unfold mech_step, bind at 1, getl.
  destruct m as [| |x|x| | | | |x|x|x|x|a x|a x|x|x]; apply on_chans;
  match goal with |- match ?m ?l w with _ => _ end =>
    lazymatch m with
    | scram_client_step _ _ _ => idtac
    | scram_server_step _ _ _ => idtac
    | _ => assert (K : keeps (chans (fun _ => False)) m); [unfold_steps; chan F|exact (K l w)]
    end
  end.
  - apply scram_client_chans. intros p ->. apply H. exact I.
  - apply scram_server_chans. intros p ->. apply H. exact I.
Qed.

(** The server: the name is in the message. *)
Definition named_in (m name : bytes) : Prop :=
  forallb cbname_char name = true /\ exists rest, m = lit "p=" ++ name ++ lit "," ++ rest.

Lemma flag_named m cf name : client_first_parse m = Ok cf -> cf_cbflag cf = CbUsed name -> named_in m name.
Proof.
  unfold client_first_parse, next_part. intros H Hf.
  destruct (split is_comma m) as [|f1 it] eqn:Es; [discriminate|].
  destruct (csplit_cons _ _ _ Es) as [Ff Hm].
  destruct (cbflag_parse f1) as [flag|x1|] eqn:Ec; cbn [rbind] in H; try discriminate.
  destruct it as [|za it]; [discriminate|].
  assert (flag = CbUsed name) as ->.
  { rewrite <- Hf. clear - H.
    match type of H with rbind ?x _ = _ => destruct x as [z|x1|] end; cbn [rbind] in H; try discriminate.
    destruct it as [|n1 it]; [discriminate|].
    destruct (slice2 n1) as [hr|x1|]; cbn [rbind] in H; try discriminate.
    destruct (bytes_eqb (fst hr) _); [discriminate|].
    unfold expect_attr at 1 in H. destruct (slice2 n1) as [hr1|x1|]; cbn [rbind] in H; try discriminate.
    destruct (bytes_eqb (fst hr1) _); [|destruct (index0 n1); cbn in H; discriminate].
    unfold utf8_p in H. destruct (from_utf8 (snd hr1)) as [u|]; [|discriminate].
    destruct it as [|n2 it]; [discriminate|].
    unfold expect_attr in H. destruct (slice2 n2) as [hr2|x1|]; cbn [rbind] in H; try discriminate.
    destruct (bytes_eqb (fst hr2) _); [|destruct (index0 n2); cbn in H; discriminate].
    destruct (forallb _ _); [|discriminate]. injection H as <-. reflexivity. }
  unfold cbflag_parse in Ec.
  destruct (bytes_eqb f1 _); [discriminate|]. destruct (bytes_eqb f1 _); [discriminate|].
  destruct f1 as [|p [|q [|x1 f1]]]; try discriminate.
  destruct (beq p _ && beq q _) eqn:Eb; [|discriminate].
  destruct (find _ _) eqn:Ef; [discriminate|]. injection Ec as <-.
  apply andb_prop in Eb. destruct Eb as [E1 E2]. apply Ascii.eqb_eq in E1, E2. subst p q.
  split.
  - apply forallb_forall. intros b Hb. pose proof (List.find_none _ _ Ef b Hb) as K. cbn in K.
    destruct (cbname_char b); [reflexivity|discriminate].
  - destruct Hm as [[Hm _]|[r [_ [-> _]]]]; [discriminate|]. exists r. reflexivity.
Qed.

Lemma scram_server_names e a input plus w :
  match scram_server_step e a input (Some (SsClientFirst plus)) w with
  | (_, _, w') => chans (fun n => exists m, input = Some m /\ named_in m n) w w' end.
Proof.
  set (ok := fun n => exists m, input = Some m /\ named_in m n).
  pose proof (chans_frame ok) as F.
  unfold scram_server_step, bind at 1, getl at 1, bind at 1, setl at 1.
  match goal with |- match ?m None w with _ => _ end =>
    assert (K : keeps (chans ok) m); [|exact (K None w)] end.
  destruct input as [m|]; [|chan F].
  apply (keeps_bind _ F); [|intros [d g]; chan F]. apply keeps_locally.
  unfold handle_client_first, scram_parse.
  intros l w0. unfold bind at 1, of_res.
  destruct (client_first_parse m) as [cf| |] eqn:Ep; cbn [rmap_err]; [|apply F..].
  match goal with |- match ?p l w0 with _ => _ end =>
    assert (K : keeps (chans ok) p); [|exact (K l w0)] end.
  apply (keeps_bind _ F); [apply (keeps_setl _ F)|]. intros _. cbv zeta.
  apply (keeps_bind _ F).
  { destruct (cf_cbflag cf) as [| |n] eqn:En; [destruct plus; chan F|chan F|].
    apply chans_need_data; [|intros v; chan F].
    exists m. split; [reflexivity|]. exact (flag_named m cf n Ep En). }
  intros _. unfold generate_nonce, random_bytes. chan F.
Qed.

(** The client: the callback has named it, or it is one of two. *)
Definition own_name (n : bytes) : Prop := n = lit "tls-exporter" \/ n = lit "tls-unique".

Definition told (w w' : world) : Prop :=
  exists evs, w_trace w' = w_trace w ++ evs /\
    forall n, In (EvChan n) evs -> own_name n \/ In (EvAnswer POverrideCBType n) evs.
Lemma told_chans w w' : chans own_name w w' -> told w w'.
Proof. intros [evs [T H]]. exists evs. split; [exact T|]. intros n Hn. left. apply H, Hn. Qed.
Lemma told_trans a b c : told a b -> told b c -> told a c.
Proof.
  intros [x [E Hx]] [y [K Hy]]. exists (x ++ y). split; [rewrite K, E, app_assoc; reflexivity|].
  intros n Hn. rewrite in_app_iff in *. destruct Hn as [Hn|Hn]; [apply Hx in Hn|apply Hy in Hn]; tauto.
Qed.

Lemma override_told e c l w r l' w' :
  maybe_need_with e POverrideCBType c (fun cbname : bytes => push_gs2 cbname ;;; ret cbname) l w = (r, l', w') ->
  exists evs, w_trace w' = w_trace w ++ evs /\ (forall n, ~ In (EvChan n) evs) /\
    forall n, r = Ok (Some n) -> In (EvAnswer POverrideCBType n) evs.
Proof.
  intros H. apply maybe_need_with_inv in H.
  assert (C : forall cs n, only_closures cs -> ~ In (EvChan n) cs).
  { intros cs n Hc Hn. unfold only_closures in Hc. rewrite Forall_forall in Hc. apply Hc in Hn. exact Hn. }
  destruct H as [cs r Hc Hr|v cs1 cs2 g r l1 w1 H1 H2 Hf Hr|v cs1 cs2 x r l1 w1 H1 H2 Hf Hr|v cs1 l1 w1 H1 Hf].
  - exists (EvRequest POverrideCBType c :: cs). split; [reflexivity|]. split.
    + intros n [Hn|Hn]; [discriminate|]. exact (C _ _ Hc Hn).
    + intros n ->. destruct Hr as [Hr|[x Hr]]; discriminate.
  - cbn in Hf. injection Hf as <- <- <-.
    exists ((EvRequest POverrideCBType c :: cs1 ++ [EvAnswer POverrideCBType v]) ++ cs2).
    split; [cbn; rewrite <- !app_assoc; cbn; rewrite <- !app_assoc; reflexivity|]. split.
    + intros n Hn. cbn [app In] in Hn. destruct Hn as [Hn|Hn]; [discriminate|].
      rewrite !in_app_iff in Hn. cbn [In] in Hn.
      destruct Hn as [[Hn|[Hn|[]]]|Hn]; [exact (C _ _ H1 Hn)|discriminate|exact (C _ _ H2 Hn)].
    + intros n ->. assert (n = v) as ->.
      { destruct Hr as [Hr|[Hr|[x Hr]]]; [injection Hr as ->; reflexivity|discriminate..]. }
      rewrite in_app_iff. left. right. apply in_app_iff. right. left. reflexivity.
  - cbn in Hf. discriminate.
  - cbn in Hf. discriminate.
Qed.

Lemma named_told {L} e name (f : bytes -> M L unit) l w evs : (forall ok v, keeps (chans ok) (f v)) ->
  In (EvAnswer POverrideCBType name) evs -> (forall n, ~ In (EvChan n) evs) ->
  forall w0, w_trace w = w_trace w0 ++ evs ->
  match need_cb_data e name empty_provider f l w with (_, _, w') => told w0 w' end.
Proof.
  intros Hf Ha Hn w0 T. pose proof (chans_frame (fun n => n = name)) as F.
  assert (K : keeps (chans (fun n => n = name)) (need_cb_data e name empty_provider f)).
  { apply chans_need_data; [reflexivity|apply Hf]. }
  specialize (K l w). destruct (need_cb_data e name empty_provider f l w) as [[r1 l1] w1].
  destruct K as [evs2 [T2 H2]]. exists (evs ++ evs2). split; [rewrite T2, T, app_assoc; reflexivity|].
  intros n H. apply in_app_iff in H. destruct H as [H|H]; [destruct (Hn n H)|].
  apply H2 in H. subst n. right. apply in_app_iff. left. exact Ha.
Qed.

Lemma quiet_told {L A} (m : M L A) l w : keeps (chans own_name) m -> match m l w with (_, _, w') => told w w' end.
Proof. intros K. specialize (K l w). destruct (m l w) as [[r1 l1] w1]. apply told_chans, K. Qed.

Lemma cbflag_told e plus l w : match client_cbflag e plus l w with (_, _, w') => told w w' end.
Proof.
  pose proof (chans_frame own_name) as F.
  destruct plus; cbn [client_cbflag].
  1,2: apply quiet_told; unfold push_gs2; chan F.
  unfold bind at 1.
  assert (K : keeps (chans own_name) (push_gs2 (lit "p="))) by (unfold push_gs2; chan F).
  specialize (K l w). destruct (push_gs2 (lit "p=") l w) as [[[u|x|] l1] w1]; [|apply told_chans, K..].
  unfold bind at 1.
  destruct (maybe_need_with e POverrideCBType empty_provider _ l1 w1) as [[r l2] w2] eqn:E.
  apply override_told in E. destruct E as [evs [T [N A]]].
  assert (K2 : chans own_name w w2).
  { eapply fr_trans; [exact F|exact K|]. exists evs. split; [exact T|]. intros n Hn. destruct (N n Hn). }
  destruct r as [[name|]|x|]; [..|apply told_chans, K2|apply told_chans, K2].
  - assert (R : match need_cb_data e name empty_provider (fun d => set_cbdata d) l2 w2 with (_, _, w') => told w1 w' end).
    { apply (named_told e name _ l2 w2 evs); [|apply A; reflexivity|exact N|exact T].
      intros ok v. pose proof (chans_frame ok) as F'. unfold set_cbdata. chan F'. }
    destruct (need_cb_data e name empty_provider _ l2 w2) as [[r3 l3] w3].
    eapply told_trans; [apply told_chans, K|exact R].
  - match goal with |- match ?m l2 w2 with _ => _ end =>
      assert (K3 : keeps (chans own_name) m) end.
    { unfold push_gs2, set_cbdata. chan F; [left; reflexivity|right; reflexivity]. }
    match goal with |- match ?m l2 w2 with _ => _ end => specialize (K3 l2 w2);
      destruct (m l2 w2) as [[r3 l3] w3] end.
    apply told_chans. eapply fr_trans; [exact F|exact K2|exact K3].
Qed.

Lemma client_first_told e plus l w : match send_client_first e plus l w with (_, _, w') => told w w' end.
Proof.
  pose proof (chans_frame own_name) as F. unfold send_client_first. unfold bind at 1.
  pose proof (cbflag_told e plus l w) as K.
  destruct (client_cbflag e plus l w) as [[[u|x|] l1] w1]; [|exact K..].
  match goal with |- match ?m l1 w1 with _ => _ end =>
    assert (K3 : keeps (chans own_name) m);
    [unfold push_gs2, esc, generate_nonce; chan F|specialize (K3 l1 w1); destruct (m l1 w1) as [[r3 l3] w3]] end.
  eapply told_trans; [exact K|apply told_chans, K3].
Qed.

(** All steps. *)
Lemma step_names e s input script r out s' : step e s input script = (r, out, s') ->
  exists evs, new_events s s' evs /\ forall n, In (EvChan n) evs ->
    (exists m, input = Some m /\ named_in m n) \/
    (begins_scram s /\ (own_name n \/ In (EvAnswer POverrideCBType n) evs)).
Proof.
  intros H. unfold step, run in H. set (w := mk_world [] script (s_trace s) (s_rng s) (s_val s)) in H.
  destruct (s_mech s) as [| |x|x| | | | |x|x|x|x|a x|a x|x|x] eqn:Em.
  13: destruct x as [[plus|x|x]|].
  17: destruct x as [[plus|d|]|].
  13:{ change (mech_step e input (XScramC a (Some (ScInitial plus))) w)
        with (on (XScramC a) (Some (ScInitial plus)) (scram_client_step e a input) (XScramC a (Some (ScInitial plus))) w) in H.
       unfold on, scram_client_step, bind at 1, getl, bind at 1, setl at 1, bind at 1, locally in H.
       pose proof (client_first_told e plus ([], None) w) as K.
       destruct (send_client_first e plus ([], None) w) as [[r1 l1] w1].
       assert (T : s_trace s' = w_trace w1).
       { destruct r1 as [q|q|]; [destruct q|..]; cbn in H; injection H as <- <- <-; reflexivity. }
       destruct K as [evs [E K]]. exists evs. split; [unfold new_events; rewrite T; exact E|].
       intros n Hn. right. split; [exists a, plus; exact Em|apply K, Hn]. }
  16:{ pose proof (on_chans (fun n => exists m, input = Some m /\ named_in m n) (XScramS a) (Some (SsClientFirst plus))
         (scram_server_step e a input) (XScramS a (Some (SsClientFirst plus))) w (scram_server_names e a input plus w)) as K.
       change (mech_step e input (XScramS a (Some (SsClientFirst plus))) w)
        with (on (XScramS a) (Some (SsClientFirst plus)) (scram_server_step e a input) (XScramS a (Some (SsClientFirst plus))) w) in H.
       destruct (on _ _ _ _ w) as [[r1 l1] w1]. injection H as <- <- <-.
       destruct K as [evs [E K]]. exists evs. split; [exact E|]. intros n Hn. left. apply K, Hn. }
  all: match type of H with context [mech_step ?a1 ?a2 ?m ?a4] =>
    pose proof (elsewhere_chans a1 a2 m a4 (fun q => q)) as K; destruct (mech_step a1 a2 m a4) as [[r1 l1] w1] end;
    injection H as <- <- <-; destruct K as [evs [E K]]; exists evs; (split; [exact E|]);
    intros n Hn; destruct (K n Hn).
Qed.

Lemma cbname_char_spec b : cbname_char b = true <-> name_char b.
Proof.
  unfold cbname_char, name_char, in_range. rewrite !orb_true_iff, !Ascii.eqb_eq, !andb_true_iff, !N.leb_le. tauto.
Qed.
Lemma named_binding m n : named_in m n -> names_binding m n.
Proof.
  intros [H [r R]]. split; [|exists r; exact R]. apply Forall_forall. intros b Hb.
  rewrite forallb_forall in H. apply cbname_char_spec, H, Hb.
Qed.
Lemma name_printable n : Forall name_char n -> printable n.
Proof.
  intros H. eapply Forall_impl; [|exact H]. intros b [Hb|[Hb|Hb]]; [subst b; cbv; split; discriminate..|lia].
Qed.

(** * Where the name and the bytes come from *)
Lemma missing_name e s input script out s' evs name :
  step e s input script = (Err (EMissingChannelBindingData name), out, s') -> new_events s s' evs ->
  app_returns e (s_trace s) evs (EMissingChannelBindingData name) \/
  (exists m, input = Some m /\ names_binding m name) \/
  (begins_scram s /\ (own_name name \/ In (EvAnswer POverrideCBType name) evs)).
Proof.
  intros H E. destruct (errors_caused _ _ _ _ _ _ _ H) as [evs1 [E1 C]].
  destruct (step_names _ _ _ _ _ _ _ H) as [evs2 [E2 N]].
  unfold new_events in E, E1, E2. assert (evs1 = evs) as -> by (eapply app_inv_head; rewrite <- E1; exact E).
  assert (evs2 = evs) as -> by (eapply app_inv_head; rewrite <- E2; exact E).
  inversion C; subst; [left; assumption|]. right.
  destruct (N name) as [[m [I1 I2]]|K]; [assumption| |right; exact K].
  left. exists m. split; [exact I1|exact (named_binding m name I2)].
Qed.

Lemma displayed T e s input script x out s' evs t :
  printable_texts T -> step e s input script = (Err x, out, s') -> new_events s s' evs -> shows T x t ->
  (forall name, begins_scram s -> In (EvAnswer POverrideCBType name) evs -> printable name) ->
  (forall name, app_returns e (s_trace s) evs (EMissingChannelBindingData name) -> printable name) ->
  printable t.
Proof.
  intros P H E S O A. apply (text_printable T x t P S). intros name ->.
  destruct (missing_name _ _ _ _ _ _ _ _ H E) as [K|[[m [_ [K _]]]|[B [[K|K]|K]]]].
  - exact (A name K).
  - exact (name_printable name K).
  - subst name. fixed_text.
  - subst name. fixed_text.
  - exact (O name B K).
Qed.

Lemma begins_part m p b : In p (split is_comma m) -> hd_error p = Some b -> begins_attribute m b.
Proof.
  intros H Hp. destruct p as [|c p]; [discriminate|]. injection Hp as ->.
  destruct (part_of _ _ H) as [t [_ [_ [->|[a ->]]]]].
  - exists [], (p ++ t). split; [reflexivity|left; reflexivity].
  - exists (a ++ lit ","), (p ++ t). split; [cbn; rewrite <- app_assoc; reflexivity|right; exists a; reflexivity].
Qed.

(** A parser that complains about a byte of the part it looks at. *)
Lemma expect_byte {A} tag next (k : bytes -> res parseerr A) b :
  expect_attr tag next k = Err (PeInvalidAttribute b) ->
  hd_error next = Some b \/ exists v, k v = Err (PeInvalidAttribute b).
Proof.
  unfold expect_attr. destruct next as [|c [|d x]]; cbn; intros H; [discriminate..|].
  revert H. match goal with |- (if ?c then _ else _) = _ -> _ => destruct c end; intros H;
    [right; exists x; exact H|injection H as ->; left; reflexivity].
Qed.
Lemma find_proof_err it x : find_proof it = Err x -> x = PeMissingAttributes \/ x = PeUnknownMandatoryExtensions.
Proof.
  induction it as [|p it IH]; cbn [find_proof]; [intros [= <-]; auto|].
  destruct p as [|c [|d p]]; cbn [slice2]; [discriminate..|].
  destruct (bytes_eqb _ _); [discriminate|]. destruct (bytes_eqb _ _); [intros [= <-]; auto|exact IH].
Qed.
Lemma find_proof_rest it v r : find_proof it = Ok (v, r) -> incl r it.
Proof.
  induction it as [|p it IH]; cbn [find_proof]; [discriminate|].
  destruct p as [|c [|d p]]; cbn [slice2]; [discriminate..|].
  destruct (bytes_eqb _ _); [intros [= _ <-]; apply incl_tl, incl_refl|].
  destruct (bytes_eqb _ _); [discriminate|]. intros H. apply incl_tl, IH, H.
Qed.

Lemma cbflag_err x y : cbflag_parse x = Err y ->
  y = PeBadCBFlag \/ exists a b r, y = PeBadCBName b /\ x = lit "p=" ++ a ++ b :: r /\
    forallb cbname_char a = true /\ cbname_char b = false.
Proof.
  unfold cbflag_parse. destruct (bytes_eqb _ _); [discriminate|]. destruct (bytes_eqb _ _); [discriminate|].
  destruct x as [|p [|q [|z x]]]; try (intros [= <-]; auto).
  destruct (beq p _ && beq q _) eqn:Eb; [|intros [= <-]; auto].
  apply andb_prop in Eb. destruct Eb as [E1 E2]. apply Ascii.eqb_eq in E1, E2. subst p q.
  cbn [skipn]. generalize (z :: x). clear z x. intros x H. right.
  destruct (find (fun b => negb (cbname_char b)) x) as [b|] eqn:Ef; [|discriminate]. injection H as <-.
  assert (K : exists a r, x = a ++ b :: r /\ forallb cbname_char a = true /\ cbname_char b = false).
  { induction x as [|c x IH]; [discriminate|]. cbn [find] in Ef. destruct (cbname_char c) eqn:Ec; cbn [negb] in Ef.
    - destruct (IH Ef) as [a [r [-> [Ha Hb]]]]. exists (c :: a), r. cbn. rewrite Ec. auto.
    - injection Ef as ->. exists [], x. auto. }
  destruct K as [a [r [-> K]]]. exists a, b, r. split; [reflexivity|]. split; [reflexivity|exact K].
Qed.

Ltac in_parts := cbn; auto 6.
Lemma client_first_byte m b : client_first_parse m = Err (PeInvalidAttribute b) -> begins_attribute m b.
Proof.
  unfold client_first_parse. intros H. pose proof (begins_part m) as B.
  destruct (split is_comma m) as [|f it]; cbn [next_part] in H; [discriminate|].
  destruct (cbflag_parse f) as [flag|x|] eqn:Ec; cbn [rbind] in H; [| |discriminate].
  2:{ destruct (cbflag_err _ _ Ec) as [->|[a [c [r [-> _]]]]]; discriminate. }
  destruct it as [|za it]; cbn [next_part] in H; [discriminate|].
  match type of H with rbind ?x _ = _ => assert (Z : forall y, x = Err y -> y = PeBadUtf8); [|destruct x as [z|y|]] end.
  { intros y. destruct za as [|c [|d za]]; cbn; [discriminate..|]. unfold utf8_p.
    destruct (from_utf8 za); [discriminate|intros [= <-]; reflexivity]. }
  2:{ cbn [rbind] in H. rewrite (Z y eq_refl) in H. discriminate. }
  2: discriminate.
  cbn [rbind] in H. destruct it as [|n1 it]; cbn [next_part] in H; [discriminate|].
  destruct (slice2 n1) as [hr|y|] eqn:Es; cbn [rbind] in H; [|destruct n1 as [|? [|? ?]]; discriminate|discriminate].
  destruct (bytes_eqb (fst hr) _); [discriminate|].
  apply expect_byte in H. destruct H as [H|[v H]]; [apply (B n1); [in_parts|exact H]|].
  unfold utf8_p in H. destruct (from_utf8 v); [|discriminate].
  destruct it as [|n2 it]; cbn [next_part] in H; [discriminate|].
  apply expect_byte in H. destruct H as [H|[w H]]; [apply (B n2); [in_parts|exact H]|].
  destruct (forallb _ _); discriminate.
Qed.
Lemma client_first_cbname m b : client_first_parse m = Err (PeBadCBName b) ->
  exists a r, m = lit "p=" ++ a ++ b :: r /\ forallb cbname_char a = true /\ cbname_char b = false.
Proof.
  unfold client_first_parse. intros H.
  destruct (split is_comma m) as [|f it] eqn:Es; cbn [next_part] in H; [discriminate|].
  destruct (csplit_cons _ _ _ Es) as [_ Hm].
  destruct (cbflag_parse f) as [flag|x|] eqn:Ec; cbn [rbind] in H; [| |discriminate].
  2:{ injection H as ->. destruct (cbflag_err _ _ Ec) as [E|[a [c [r [E K]]]]]; [discriminate|].
      injection E as ->. destruct K as [-> K]. exists a.
      destruct Hm as [[-> ->]|[q [_ [-> _]]]]; [exists r|exists (r ++ lit "," ++ q)]; (split; [|exact K]); [reflexivity|].
      cbn. rewrite <- app_assoc. reflexivity. }
  exfalso. clear - H.
  assert (X : forall A (tag next : bytes) (k : bytes -> res parseerr A), (forall v, k v <> Err (PeBadCBName b)) ->
    expect_attr tag next k <> Err (PeBadCBName b)).
  { intros A tag next k Hk. unfold expect_attr. destruct next as [|c [|d x]]; cbn; [discriminate..|].
    match goal with |- (if ?c then _ else _) <> _ => destruct c end; [apply Hk|discriminate]. }
  destruct it as [|za it]; cbn [next_part] in H; [discriminate|].
  match type of H with rbind ?x _ = _ => assert (Z : forall y, x = Err y -> y = PeBadUtf8); [|destruct x as [z|y|]] end.
  { intros y. destruct za as [|c [|d za]]; cbn; [discriminate..|]. unfold utf8_p.
    destruct (from_utf8 za); [discriminate|intros [= <-]; reflexivity]. }
  2:{ cbn [rbind] in H. rewrite (Z y eq_refl) in H. discriminate. }
  2: discriminate.
  cbn [rbind] in H. destruct it as [|n1 it]; cbn [next_part] in H; [discriminate|].
  destruct (slice2 n1) as [hr|y|] eqn:Es; cbn [rbind] in H; [|destruct n1 as [|? [|? ?]]; discriminate|discriminate].
  destruct (bytes_eqb (fst hr) _); [discriminate|]. revert H. apply X. intros v.
  unfold utf8_p. destruct (from_utf8 v); [|discriminate].
  destruct it as [|n2 it]; cbn [next_part]; [discriminate|]. apply X. intros w.
  destruct (forallb _ _); discriminate.
Qed.
Lemma server_first_byte m b : server_first_parse m = Err (PeInvalidAttribute b) -> begins_attribute m b.
Proof.
  unfold server_first_parse. intros H. pose proof (begins_part m) as B.
  destruct (split is_comma m) as [|p1 it]; cbn [next_part] in H; [discriminate|].
  destruct (Nat.ltb (length p1) 2); [discriminate|].
  destruct (slice2 p1) as [hr|y|] eqn:Es; cbn [rbind] in H; [|destruct p1 as [|? [|? ?]]; discriminate|discriminate].
  destruct (bytes_eqb (fst hr) _); [discriminate|].
  apply expect_byte in H. destruct H as [H|[v H]]; [apply (B p1); [in_parts|exact H]|].
  destruct it as [|p2 it]; cbn [next_part] in H; [discriminate|].
  apply expect_byte in H. destruct H as [H|[v2 H]]; [apply (B p2); [in_parts|exact H]|].
  destruct it as [|p3 it]; cbn [next_part] in H; [discriminate|].
  apply expect_byte in H. destruct H as [H|[v3 H]]; [apply (B p3); [in_parts|exact H]|].
  destruct it as [|p4 it]; [discriminate|]. apply (B p4); [in_parts|].
  destruct p4 as [|c p4]; cbn in H; [discriminate|]. injection H as ->. reflexivity.
Qed.
Lemma client_final_byte m b : client_final_parse m = Err (PeInvalidAttribute b) -> begins_attribute m b.
Proof.
  unfold client_final_parse. intros H. pose proof (begins_part m) as B.
  destruct (split is_comma m) as [|p1 it]; cbn [next_part] in H; [discriminate|].
  apply expect_byte in H. destruct H as [H|[v H]]; [apply (B p1); [in_parts|exact H]|].
  destruct it as [|p2 it]; cbn [next_part] in H; [discriminate|].
  apply expect_byte in H. destruct H as [H|[v2 H]]; [apply (B p2); [in_parts|exact H]|].
  destruct (find_proof it) as [[p r]|x|] eqn:Ef; cbn [rbind fst snd] in H; [| |discriminate].
  2:{ injection H as ->. destruct (find_proof_err _ _ Ef); discriminate. }
  destruct r as [|p4 r]; [discriminate|]. apply (B p4).
  - right. right. apply (find_proof_rest _ _ _ Ef). left. reflexivity.
  - destruct p4 as [|c p4]; cbn in H; [discriminate|]. injection H as ->. reflexivity.
Qed.
Lemma server_final_byte m b : server_final_parse m = Err (PeInvalidAttribute b) -> begins_attribute m b.
Proof.
  unfold server_final_parse. destruct m as [|c [|d m]]; cbn [slice2 rbind fst snd]; [discriminate..|].
  destruct (bytes_eqb _ _); [discriminate|]. destruct (bytes_eqb _ _); [discriminate|]. cbn. intros [= ->].
  exists [], (d :: m). split; [reflexivity|left; reflexivity].
Qed.

Lemma server_first_no_cbname m b : server_first_parse m <> Err (PeBadCBName b).
Proof.
  unfold server_first_parse.
  assert (X : forall A (tag next : bytes) (k : bytes -> res parseerr A), (forall v, k v <> Err (PeBadCBName b)) ->
    expect_attr tag next k <> Err (PeBadCBName b)).
  { intros A tag next k Hk. unfold expect_attr. destruct next as [|c [|d x]]; cbn; [discriminate..|].
    match goal with |- (if ?c then _ else _) <> _ => destruct c end; [apply Hk|discriminate]. }
  destruct (split is_comma m) as [|p1 it]; cbn [next_part]; [discriminate|].
  destruct (Nat.ltb (length p1) 2); [discriminate|].
  destruct (slice2 p1) as [hr|y|] eqn:Es; cbn [rbind]; [|destruct p1 as [|? [|? ?]]; discriminate|discriminate].
  destruct (bytes_eqb (fst hr) _); [discriminate|]. apply X. intros v.
  destruct it as [|p2 it]; cbn [next_part]; [discriminate|]. apply X. intros v2.
  destruct it as [|p3 it]; cbn [next_part]; [discriminate|]. apply X. intros v3.
  destruct it as [|[|c p4] it]; discriminate.
Qed.
Lemma client_final_no_cbname m b : client_final_parse m <> Err (PeBadCBName b).
Proof.
  unfold client_final_parse.
  assert (X : forall A (tag next : bytes) (k : bytes -> res parseerr A), (forall v, k v <> Err (PeBadCBName b)) ->
    expect_attr tag next k <> Err (PeBadCBName b)).
  { intros A tag next k Hk. unfold expect_attr. destruct next as [|c [|d x]]; cbn; [discriminate..|].
    match goal with |- (if ?c then _ else _) <> _ => destruct c end; [apply Hk|discriminate]. }
  destruct (split is_comma m) as [|p1 it]; cbn [next_part]; [discriminate|]. apply X. intros v.
  destruct it as [|p2 it]; cbn [next_part]; [discriminate|]. apply X. intros v2.
  destruct (find_proof it) as [[p r]|x|] eqn:Ef; cbn [rbind fst snd]; [| |discriminate].
  - destruct r as [|[|c p4] r]; discriminate.
  - intros [= ->]. destruct (find_proof_err _ _ Ef); discriminate.
Qed.
Lemma server_final_no_cbname m b : server_final_parse m <> Err (PeBadCBName b).
Proof.
  unfold server_final_parse. destruct m as [|c [|d m]]; cbn [slice2 rbind fst snd]; [discriminate..|].
  destruct (bytes_eqb _ _); [discriminate|]. destruct (bytes_eqb _ _); discriminate.
Qed.

Lemma displayed_byte e s input script x out s' evs b :
  step e s input script = (Err (EMech (MScramParse x)), out, s') -> new_events s s' evs ->
  x = PeInvalidAttribute b \/ x = PeBadCBName b ->
  app_returns e (s_trace s) evs (EMech (MScramParse x)) \/
  exists m, input = Some m /\
    (begins_attribute m b \/
     exists a r, m = lit "p=" ++ a ++ b :: r /\ Forall name_char a /\ ~ name_char b).
Proof.
  intros H E X. destruct (errors_caused _ _ _ _ _ _ _ H) as [evs1 [E1 C]].
  unfold new_events in E, E1. assert (evs1 = evs) as -> by (eapply app_inv_head; rewrite <- E1; exact E).
  inversion C; subst; [left; assumption|]. right.
  match goal with R : reports _ _ _ _ _ |- _ => inversion R; subst end.
  all: try (destruct X; discriminate).
  all: try match goal with K : In _ _ |- _ => cbn in K; repeat (destruct K as [K|K]; [discriminate|]); destruct K end.
  all: exists i; (split; [congruence|]).
  all: try match goal with P : xoauth2_parse _ = Err _ |- _ =>
    exfalso; destruct (xoauth2_errors _ _ P); discriminate end.
  all: destruct X as [->| ->].
  all: try solve [left; eauto using server_first_byte, client_first_byte, server_final_byte, client_final_byte].
  - destruct (server_first_no_cbname i b); assumption.
  - destruct (server_final_no_cbname i b); assumption.
  - right. destruct (client_first_cbname i b) as [n [r [Hm [Ha Hb]]]]; [assumption|]. exists n, r.
    split; [exact Hm|]. split.
    + apply Forall_forall. intros c Hc. rewrite forallb_forall in Ha. apply cbname_char_spec, Ha, Hc.
    + intros K. apply cbname_char_spec in K. congruence.
  - destruct (client_final_no_cbname i b); assumption.
Qed.

(** * All there is to be displayed *)
Definition all_bytes : list byte := map (fun n => chr (N.of_nat n)) (seq 0 256).
Lemma all_bytes_spec b : In b all_bytes.
Proof.
  apply in_map_iff. exists (nat_of_ascii b). split.
  - unfold nat_of_ascii. rewrite N2Nat.id. apply ascii_N_embedding.
  - apply in_seq. split; [apply Nat.le_0_l|]. apply nat_ascii_bounded.
Qed.

Definition parse_prefix : bytes := lit "failed to parse received message: ".
Definition mech_fixed : list bytes :=
  [lit "The given value contains a NULL-byte"; lit "authid and password must not be empty";
   lit "invalid format, expected three strings separated by two NULL-bytes";
   lit "the given external token is invalid UTF-8";
   lit "anonymous token received is invalid UTF-8 or longer than 255 chars";
   lit "response message is invalid UTF-8"; lit "provided username is not UTF-8 encoded";
   lit "provided bearer token is not UTF-8 encoded"; lit "input is of an invalid format";
   lit "failed to parse message"; lit "failed to serialize error message";
   lit "provided password hash is wrong size for selected algorithm";
   lit "channel bindings are supported by both sides but were not used";
   lit "final token is invalid"; lit "produced context is not secure enough";
   lit "empty string is invalid for name"; lit "name contains invalid escape sequence"] ++
  map (fun x => lit "SCRAM protocol error: " ++ protocol_text x)
    [PrInvalidNonce; PrIterationCountFormat; PrIterationCountZero; PrBase64Decode] ++
  map (fun x => lit "SCRAM outcome error: " ++ outcome_text x)
    [SeInvalidEncoding; SeExtensionsNotSupported; SeInvalidProof; SeChannelBindingsDontMatch;
     SeServerDoesSupportChannelBinding; SeChannelBindingNotSupported; SeUnsupportedChannelBindingType;
     SeUnknownUser; SeInvalidUsernameEncoding; SeNoResources; SeOtherError] ++
  map (fun x => parse_prefix ++ x)
    [lit "bad channel flag"; lit "invalid gs2header"; lit "required attribute is missing";
     lit "an extension is unknown but marked mandatory"; lit "nonce contains invalid character"].
Definition mech_bytes : list bytes :=
  map (fun b => parse_prefix ++ lit "channel binding name contains invalid byte " ++ fmt_hex b) all_bytes ++
  map (fun b => parse_prefix ++ lit "attribute contains invalid byte " ++ fmt_hex b) all_bytes ++
  map (fun b => lit "name contains invalid char " ++ fmt_u8 b) all_bytes.
Definition mech_prefixes : list bytes :=
  [lit "authzid is invalid UTF-8: "; lit "authcid is invalid UTF-8: "; lit "saslprep failed: "; [];
   parse_prefix ++ lit "invalid UTF-8: "; lit "name contains invalid utf-8: "; lit "GSS-API error: "].
Definition known : list bytes :=
  [lit "IO error occurred"; lit "base64 wrapping failed"; lit "no security layer is installed";
   lit "input data was required but not provided"; lit "step was called after mechanism finished";
   lit "callback error"; lit "validation error"; lit "callback did not validate the authentication exchange";
   lit "the server failed mutual authentication"] ++
  map (fun t => lit "internal mechanism error: " ++ t) (mech_fixed ++ mech_bytes ++ mech_prefixes).

Definition from_libs (T : texts) (u : bytes) : Prop := utf8_shows u \/ tx_prep T u \/ tx_gss T u.

Ltac listed := repeat first [left; reflexivity | right].
Lemma mech_known T x t : mech_shows T x t ->
  In t (mech_fixed ++ mech_bytes) \/ exists p u, In p mech_prefixes /\ t = p ++ u /\ from_libs T u.
Proof.
  intros H.
  destruct x as [x| | | | | |x| |x|x|x| | |x| | |]; cbn [mech_shows] in H.
  - destruct x; cbn [plain_shows] in H.
    1,2,3: subst t; left; apply in_app_iff; left; listed.
    1,2,3: right; destruct H as [u [U ->]]; eexists; exists u; (split; [|split; [reflexivity|unfold from_libs; auto]]); listed.
  - right. exists [], t. split; [listed|]. split; [reflexivity|left; exact H].
  - subst t. left. apply in_app_iff. left. listed.
  - subst t. left. apply in_app_iff. left. listed.
  - left. apply in_app_iff. left. destruct H as [H|[H|H]]; subst t; listed.
  - subst t. left. apply in_app_iff. left. listed.
  - subst t. left. apply in_app_iff. left. listed.
  - subst t. left. apply in_app_iff. left. listed.
  - subst t. left. apply in_app_iff. left. destruct x; listed.
  - destruct H as [u [U ->]]. destruct x; cbn [parse_shows] in U; try (subst u; left; apply in_app_iff; left; solve [listed]).
    + subst u. left. apply in_app_iff. right. unfold mech_bytes. apply in_app_iff. left.
      apply in_map_iff. exists b. split; [reflexivity|apply all_bytes_spec].
    + subst u. left. apply in_app_iff. right. unfold mech_bytes. apply in_app_iff. right. apply in_app_iff. left.
      apply in_map_iff. exists b. split; [reflexivity|apply all_bytes_spec].
    + destruct U as [v [V ->]]. right. exists (parse_prefix ++ lit "invalid UTF-8: "), v.
      split; [listed|]. split; [reflexivity|left; exact V].
  - subst t. left. apply in_app_iff. left. destruct x; listed.
  - subst t. left. apply in_app_iff. left. listed.
  - subst t. left. apply in_app_iff. left. listed.
  - destruct x; cbn [name_shows] in H; try (subst t; left; apply in_app_iff; left; solve [listed]).
    + right. destruct H as [u [U ->]]. eexists; exists u; (split; [|split; [reflexivity|unfold from_libs; auto]]); listed.
    + subst t. left. apply in_app_iff. right. unfold mech_bytes. apply in_app_iff. right. apply in_app_iff. right.
      apply in_map_iff. exists b. split; [reflexivity|apply all_bytes_spec].
  - right. destruct H as [u [U ->]]. eexists; exists u; (split; [|split; [reflexivity|unfold from_libs; auto]]); listed.
  - subst t. left. apply in_app_iff. left. listed.
  - subst t. left. apply in_app_iff. left. listed.
Qed.

Lemma all_known T x t : shows T x t ->
  In t known \/ (exists p u, In p known /\ t = p ++ u /\ (utf8_shows u \/ tx_prep T u \/ tx_gss T u)) \/
  (exists n, x = EBoxed n /\ tx_boxed T n t) \/
  (exists name, x = EMissingChannelBindingData name /\ t = lit "channel binding data for '" ++ name ++ lit "' is required").
Proof.
  intros H. destruct x as [y| | | | |y| |p| |y|n| | |name]; cbn [shows] in H.
  6:{ destruct H as [u [U ->]]. destruct (mech_known T y u U) as [K|[p [v [Hp [-> K]]]]].
      - left. unfold known. apply in_app_iff. right. apply in_map_iff. exists u. split; [reflexivity|].
        rewrite app_assoc. apply in_app_iff. left. exact K.
      - right. left. exists (lit "internal mechanism error: " ++ p), v. split.
        + unfold known. apply in_app_iff. right. apply in_map_iff. exists p. split; [reflexivity|].
          rewrite app_assoc. apply in_app_iff. right. exact Hp.
        + split; [rewrite app_assoc; reflexivity|exact K]. }
  10: right; right; left; exists n; auto.
  12: right; right; right; exists name; auto.
  all: left; unfold known; apply in_app_iff; left; subst t; listed.
Qed.
