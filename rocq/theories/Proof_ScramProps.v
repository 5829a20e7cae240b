(** SCRAM: the flag of a selected client, servers started from a registry, signed messages and
    nonces. *)
From Coq Require Import Lia.
From Verif Require Import Bytes BytesFacts Utf8 Utf8Facts Types World CallbackSpec WorldFacts Base64
  Base64Facts Num NumFacts Simple OAuth ScramParser Scram Gssapi Session Registry Spec_Registry
  Proof_Registry Spec_Simple Spec_OAuth Spec_ScramText Spec_Scram MonadFacts Frame Calm Proof_Simple
  Proof_OAuth Proof_ScramText Proof_Scram Proof_ScramRun Proof_ScramMain Proof_ScramPanic Spec_Wire Proof_Wire.

(** * C08 *)

Theorem bare_flag reg cb prefer offered i a e s input script st msg s' :
  client_start reg cb prefer offered = Ok (i, DScram a false) ->
  i = Builtin (s_mech s) -> no_zero script ->
  step e s input script = (Ok st, msg, s') ->
  (exists rest, msg = lit "y," ++ rest /\ cb = true /\ ~ In (scram_plus_name a) offered) \/
  (exists rest, msg = lit "n," ++ rest /\ (cb = false \/ In (scram_plus_name a) offered)).
Proof.
  intros Hs Ei Hz H. apply start_inv in Hs. destruct Hs as [_ [_ [_ [_ Hi]]]].
  specialize (Hi a eq_refl). rewrite Ei in Hi. injection Hi as Hi.
  destruct (client_first_any _ _ _ _ _ _ _ _ _ Hi Hz H)
    as [evs [flagt [zpart [data [user [uesc [_ [_ [-> [_ [_ [_ [_ [_ [_ [_ Hf]]]]]]]]]]]]]]]].
  destruct cb.
  - destruct (mem (scram_plus_name a) offered) eqn:Em.
    + right. destruct Hf as [-> _]. eexists. split; [rewrite <- !app_assoc; reflexivity|].
      right. apply mem_In. exact Em.
    + left. destruct Hf as [-> _]. eexists. split; [rewrite <- !app_assoc; reflexivity|].
      split; [reflexivity|]. apply mem_not_In. exact Em.
  - right. destruct Hf as [-> _]. eexists. split; [rewrite <- !app_assoc; reflexivity|].
    left. reflexivity.
Qed.

Theorem plus_flag reg cb prefer offered i a e s input script st msg s' :
  client_start reg cb prefer offered = Ok (i, DScram a true) ->
  i = Builtin (s_mech s) -> no_zero script ->
  step e s input script = (Ok st, msg, s') ->
  exists rest, msg = lit "p=" ++ rest.
Proof.
  intros Hs Ei Hz H. apply start_inv in Hs. destruct Hs as [_ [_ [Hf _]]].
  rewrite Ei in Hf. inversion Hf as [|a0 E1 E2| | | | | | | |]. symmetry in E2.
  destruct (client_first_any _ _ _ _ _ _ _ _ _ E2 Hz H)
    as [evs [flagt [zpart [data [user [uesc [_ [_ [-> [_ [_ [_ [_ [_ [_ [_ [x ->]]]]]]]]]]]]]]]]].
  eexists. rewrite <- !app_assoc. reflexivity.
Qed.

(** * C09 *)

Lemma started_plus reg name i a plus s :
  server_start reg name = Ok (i, DScram a plus) -> i = Builtin (s_mech s) ->
  exists b, s_mech s = XScramS a (Some (SsClientFirst b)) /\
    (b = true <-> plus = true \/ exists x, In x reg /\ d_name x = scram_plus_name a).
Proof.
  intros Hs Ei. apply server_exact in Hs. destruct Hs as [_ Hf]. rewrite Ei in Hf.
  remember (s_mech s) as ms eqn:Ems. clear Ems.
  inversion Hf as [a0 b Hb E1 E2|a0 E1 E2| | | | | | | |]; subst.
  - exists b. split; [reflexivity|]. rewrite Hb. split; [auto|]. intros [H|H]; [discriminate|exact H].
  - exists true. split; [reflexivity|]. split; auto.
Qed.

Theorem downgrade_detected reg name i a plus e s m two z user cn t script r out s' :
  server_start reg name = Ok (i, DScram a plus) -> i = Builtin (s_mech s) ->
  plus = true \/ (exists x, In x reg /\ d_name x = scram_plus_name a) ->
  client_first_fields m CbSupportedNotUsed two z user cn t ->
  step e s (Some m) script = (r, out, s') ->
  r = Err (EMech MScramChannelBindingsNotUsed) /\ out = [] /\ new_events s s' [] /\
  s_val s' = s_val s.
Proof.
  intros Hs Ei Hp Hf H. destruct (started_plus _ _ _ _ _ _ Hs Ei) as [b [Em Hb]].
  apply Hb in Hp. subst b. eapply downgrade_refused; eauto.
Qed.

Theorem no_downgrade_accepted reg name i a e s m two z user cn t (o : option stored) :
  server_start reg name = Ok (i, DScram a false) -> i = Builtin (s_mech s) ->
  (forall x, In x reg -> d_name x <> scram_plus_name a) ->
  client_first_fields m CbSupportedNotUsed two z user cn t ->
  looks_up e user z o -> (forall sp, o = Some sp -> usable a sp) ->
  exists out s', step e s (Some m) [] = (Ok Running, out, s').
Proof.
  intros Hs Ei Hp Hf Ho Hu. destruct (started_plus _ _ _ _ _ _ Hs Ei) as [b [Em Hb]].
  assert (b = false) as ->.
  { destruct b; [|reflexivity]. destruct (proj1 Hb eq_refl) as [H|[x [H1 H2]]]; [discriminate|].
    destruct (Hp x H1 H2). }
  destruct (server_first_run e s a false m _ two z user cn t [] o Em Hf ltac:(auto) eq_refl Ho Hu)
    as [out [s' [H _]]]. eauto.
Qed.

(** * C39: the signed message is the conversation *)

Lemma cons_eq {A} (x y : A) l l' : x :: l = y :: l' -> x = y /\ l = l'.
Proof. intros H. injection H as -> ->. auto. Qed.
Lemma lit_comma x : lit "," ++ x = ","%char :: x.
Proof. reflexivity. Qed.
Lemma first_bare_split user nonce t :
  free ","%char user -> 
  split is_comma (first_bare user nonce ++ t) = (lit "n=" ++ user) :: split is_comma (lit "r=" ++ nonce ++ t).
Proof.
  intros Hu. unfold first_bare.
  replace ((lit "n=" ++ user ++ lit ",r=" ++ nonce) ++ t)
    with ((lit "n=" ++ user) ++ ","%char :: (lit "r=" ++ nonce ++ t)).
  - apply csplit_app. intros [H|[H|H]]; [discriminate|discriminate|exact (Hu H)].
  - rewrite <- !app_assoc. reflexivity.
Qed.
Lemma free_attr c1 c2 x : c1 <> ","%char -> c2 <> ","%char -> free ","%char x ->
  free ","%char ([c1; c2] ++ x).
Proof. intros H1 H2 H [E|[E|E]]; auto. Qed.
Lemma tail_split x t : free ","%char x -> tail_of_attributes t -> split is_comma (x ++ t) = [x] -> t = [].
Proof.
  intros Hx [->|[r ->]] H; [reflexivity|]. rewrite csplit_app in H by exact Hx.
  injection H as H. destruct (split is_comma r) eqn:E; [|discriminate].
  exfalso. revert E. clear. induction r as [|b r IH]; cbn; [discriminate|].
  destruct (is_comma b); [discriminate|]. destruct (split is_comma r); [discriminate|discriminate].
Qed.

Lemma plain_first m f two z user cn t flagt zpart user' cn' :
  client_first_fields m f two z user cn t ->
  m = flagt ++ lit "," ++ zpart ++ lit "," ++ first_bare user' cn' ->
  free ","%char flagt -> free ","%char zpart -> free ","%char user' -> free ","%char cn' ->
  user' = user /\ cn' = cn /\ t = [].
Proof.
  intros [Em [_ [Hlf [Hn [Ht [Fz [Fu _]]]]]]] Em' F1 F2 F3 F4.
  assert (Fcn : free ","%char cn).
  { intros Hi. unfold legal_nonce in Hn. rewrite Forall_forall in Hn. apply Hn in Hi. apply Hi. reflexivity. }
  assert (Ff : free ","%char (flag_text f)).
  { destruct f; cbn; try (intros [H|[]]; discriminate).
    intros [H|[H|H]]; [discriminate|discriminate|]. destruct Hlf as [_ Hl].
    rewrite forallb_forall in Hl. apply Hl in H. discriminate. }
  rewrite Em in Em'. clear Em.
  pose proof (f_equal (split is_comma) Em') as E. rewrite !lit_comma in E.
  rewrite (csplit_app _ _ Ff), (csplit_app _ _ F1) in E. apply cons_eq in E. destruct E as [_ E].
  rewrite (csplit_app _ _ Fz), (csplit_app _ _ F2) in E. apply cons_eq in E. destruct E as [_ E].
  rewrite first_bare_split in E by exact Fu.
  rewrite <- (app_nil_r (first_bare user' cn')), first_bare_split in E by exact F3.
  apply cons_eq in E. destruct E as [E1 E]. apply app_inv_head in E1. rewrite app_nil_r in E.
  rewrite app_assoc in E.
  rewrite (csplit_one (lit "r=" ++ cn')) in E by (apply free_attr; [discriminate|discriminate|exact F4]).
  assert (Fr : free ","%char (lit "r=" ++ cn)) by (apply free_attr; [discriminate|discriminate|exact Fcn]).
  destruct (csplit_with_tail _ _ Fr Ht) as [rest Er]. rewrite Er in E.
  apply cons_eq in E. destruct E as [E2 E3].
  apply app_inv_head in E2. split; [auto|]. split; [auto|].
  apply (tail_split _ _ Fr Ht). rewrite Er, E3. reflexivity.
Qed.

Lemma ext_split l : forall x y, free ","%char x -> Forall extension l -> free ","%char y ->
  split is_comma (x ++ extensions_text l ++ ","%char :: y) = x :: l ++ [y].
Proof.
  induction l as [|a l IH]; intros x y Hx Hl Hy.
  - cbn. rewrite csplit_app by exact Hx. rewrite csplit_one by exact Hy. reflexivity.
  - inversion Hl; subst. unfold extensions_text. cbn [map concat].
    cbn [app]. rewrite <- app_assoc. rewrite csplit_app by exact Hx.
    change (concat (map (cons ","%char) l)) with (extensions_text l).
    rewrite IH; [reflexivity|apply H1|exact H2|exact Hy].
Qed.

Lemma plain_final cb fn exts p64 cb' fn' p64' :
  final_bare cb fn ++ extensions_text exts ++ lit ",p=" ++ p64 = final_bare cb' fn' ++ lit ",p=" ++ p64' ->
  free ","%char cb -> free ","%char fn -> free ","%char p64 -> Forall extension exts ->
  free ","%char cb' -> free ","%char fn' -> free ","%char p64' ->
  cb' = cb /\ fn' = fn /\ p64' = p64 /\ exts = [].
Proof.
  intros E F1 F2 F3 He F4 F5 F6.
  assert (G : forall cb fn exts p64, free ","%char cb -> free ","%char fn -> free ","%char p64 ->
    Forall extension exts ->
    split is_comma (final_bare cb fn ++ extensions_text exts ++ lit ",p=" ++ p64) =
    (lit "c=" ++ cb) :: (lit "r=" ++ fn) :: exts ++ [lit "p=" ++ p64]).
  { clear. intros cb fn exts p64 F1 F2 F3 He. unfold final_bare.
    replace ((lit "c=" ++ cb ++ lit ",r=" ++ fn) ++ extensions_text exts ++ lit ",p=" ++ p64)
      with ((lit "c=" ++ cb) ++ ","%char :: ((lit "r=" ++ fn) ++ extensions_text exts ++ ","%char :: (lit "p=" ++ p64)))
      by (rewrite <- !app_assoc; reflexivity).
    rewrite csplit_app by (apply free_attr; [discriminate|discriminate|exact F1]).
    rewrite ext_split; [reflexivity| |exact He|];
      apply free_attr; auto; discriminate. }
  pose proof (f_equal (split is_comma) E) as S. rewrite G in S by assumption.
  assert (G' := G cb' fn' [] p64' F4 F5 F6 (Forall_nil _)).
  change (extensions_text [] ++ lit ",p=" ++ p64') with (lit ",p=" ++ p64') in G'. rewrite G' in S.
  apply cons_eq in S. destruct S as [E1 S]. apply cons_eq in S. destruct S as [E2 S].
  apply app_inv_head in E1. apply app_inv_head in E2.
  destruct exts as [|x exts]; [|destruct exts; discriminate].
  injection S as S. subst. auto.
Qed.

Theorem server_signs e s0 a plus m1 script1 st out1 s1 m2 script2 r out2 s2
    flagt zpart user cn cb fn p64 :
  s_mech s0 = XScramS a (Some (SsClientFirst plus)) -> crypto_ok e -> no_zero script1 ->
  step e s0 (Some m1) script1 = (Ok st, out1, s1) ->
  step e s1 (Some m2) script2 = (r, out2, s2) ->
  vouches s1 s2 out2 ->
  m1 = (flagt ++ lit "," ++ zpart ++ lit ",") ++ first_bare user cn ->
  free ","%char flagt -> free ","%char zpart -> free ","%char user -> free ","%char cn ->
  m2 = final_bare cb fn ++ lit ",p=" ++ p64 ->
  free ","%char cb -> free ","%char fn -> free ","%char p64 ->
  exists evs sp P, new_events s0 s1 evs /\ answers PScramStoredPassword evs = [sp] /\
    proof_value a p64 P /\
    e_hash e a (xor_text P (e_hmac e a (st_stored_key sp)
      (rfc_auth_message (first_bare user cn) out1 (final_bare cb fn)))) = st_stored_key sp.
Proof.
  intros Em Hc Hz H1 H2 Hv Em1 F1 F2 F3 F4 Em2 F5 F6 F7.
  destruct (server_sound _ _ _ _ _ _ _ _ _ _ _ _ _ _ Em Hc Hz H1 H2 Hv)
    as [evs [f [two' [z' [user' [cn' [t' [data' [sp [Hn [_ [Hf [_ [_ [Ha [_ [Hp _]]]]]]]]]]]]]]]]].
  destruct (plain_first _ _ _ _ _ _ _ flagt zpart user cn Hf) as [-> [-> ->]]; auto.
  { rewrite Em1, <- !app_assoc. reflexivity. }
  destruct Hp as [cb' [exts [p64' [P [_ [Hm2' [Hcb' [Hp64 [Hex [_ [Hpv Hh]]]]]]]]]]].
  rewrite Em2 in Hm2'. symmetry in Hm2'.
  apply plain_final in Hm2'; auto.
  - destruct Hm2' as [-> [-> [-> ->]]]. exists evs, sp, P. auto.
  - apply free_app; [exact F4|]. apply nonce_from_free.
Qed.

(** * C41 *)

Theorem client_answers_extension e s a cb nonce user m script r out s' :
  client_waits s a cb nonce user -> step e s (Some m) script = (r, out, s') ->
  out <> [] \/ (exists st, r = Ok st) \/ ~ new_events s s' [] ->
  exists sn salt64 iters, sn <> [] /\ m = server_first_text (nonce ++ sn) salt64 iters.
Proof.
  intros Hw H Ho. destruct (client_second _ _ _ _ _ _ _ _ _ _ _ Hw H)
    as [[_ [Hr [-> [Hn _]]]]|[sn [salt64 [salt [iters [n [[Em [Hsn _]] _]]]]]]].
  - exfalso. destruct Ho as [Ho|[[st ->]|Ho]]; [congruence|exact (Hr st eq_refl)|exact (Ho Hn)].
  - exists sn, salt64, iters. auto.
Qed.

Theorem server_exact_nonce e s0 a plus m1 script1 st out1 s1 m2 script2 r out2 s2 :
  s_mech s0 = XScramS a (Some (SsClientFirst plus)) -> crypto_ok e -> no_zero script1 ->
  step e s0 (Some m1) script1 = (Ok st, out1, s1) ->
  step e s1 (Some m2) script2 = (r, out2, s2) ->
  vouches s1 s2 out2 ->
  exists nonce cb rest salt iters,
    m2 = final_bare cb nonce ++ rest /\ free ","%char cb /\ free ","%char nonce /\
    tail_of_attributes rest /\ out1 = server_first_text nonce salt iters.
Proof.
  intros Em Hc Hz H1 H2 Hv.
  destruct (server_sound _ _ _ _ _ _ _ _ _ _ _ _ _ _ Em Hc Hz H1 H2 Hv)
    as [evs [f [two' [z' [user' [cn' [t' [data' [sp [Hn [_ [Hf [_ [_ [Ha [_ [Hp _]]]]]]]]]]]]]]]]].
  destruct Hp as [cb' [exts [p64' [P [Ho [Hm2' [Hcb' [Hp64 [Hex [_ [Hpv Hh]]]]]]]]]]].
  exists (cn' ++ nonce_from e (s_rng s0)), cb', (extensions_text exts ++ lit ",p=" ++ p64'),
    (encode (st_salt sp)), (fmt_u32 (st_iterations sp)).
  split; [exact Hm2'|]. split; [exact Hcb'|]. split.
  - apply free_app; [|apply nonce_from_free]. destruct Hf as [_ [_ [_ [Hn' _]]]].
    intros Hi. unfold legal_nonce in Hn'. rewrite Forall_forall in Hn'. apply Hn' in Hi. apply Hi. reflexivity.
  - split; [|exact Ho]. right. destruct exts as [|x exts]; eexists; reflexivity.
Qed.

Theorem fresh_client_nonce e s a plus input script st msg s' :
  s_mech s = XScramC a (Some (ScInitial plus)) -> no_zero script ->
  step e s input script = (Ok st, msg, s') ->
  exists header user, msg = header ++ first_bare user (nonce_from e (s_rng s)) /\
    free ","%char user /\ s_rng s' = s_rng s + 24 /\
    legal_nonce (nonce_from e (s_rng s)) /\ length (nonce_from e (s_rng s)) = 24.
Proof.
  intros Em Hz H. destruct (client_first_any _ _ _ _ _ _ _ _ _ Em Hz H)
    as [evs [flagt [zpart [data [user [uesc [_ [_ [-> [_ [R [_ [_ [_ [Ee [_ Hf]]]]]]]]]]]]]]]].
  do 2 eexists. split; [reflexivity|]. split; [eapply escape_no_comma; eauto|].
  split; [rewrite R; lia|]. apply nonce_from_legal.
Qed.

Theorem fresh_server_nonce e s a plus m script st out s' :
  s_mech s = XScramS a (Some (SsClientFirst plus)) -> no_zero script ->
  step e s (Some m) script = (Ok st, out, s') ->
  exists cf salt iters, client_first_parse m = Ok cf /\
    out = server_first_text (cf_nonce cf ++ nonce_from e (s_rng s)) salt iters /\
    s_rng s + 24 <= s_rng s' /\
    legal_nonce (nonce_from e (s_rng s)) /\ length (nonce_from e (s_rng s)) = 24.
Proof.
  intros Em Hz H. destruct (server_first_any _ _ _ _ _ _ _ _ _ Em H)
    as [evs [f [two [z [user [cn [t [data [_ [_ [_ [_ [Hf [_ [_ K]]]]]]]]]]]]]]].
  pose proof (fields_parse _ _ _ _ _ _ _ Hf) as P.
  destruct K as [[sp [_ [_ [_ [R Ho]]]]]|[_ [R [_ [salt [_ Ho]]]]]];
    do 3 eexists; (split; [exact P|]); (split; [apply Ho; exact Hz|]);
    (split; [rewrite R; lia|]); apply nonce_from_legal.
Qed.
