(** Lemmas for C80: the writer of errors, and both ends. *)
From Verif Require Import Bytes BytesFacts Utf8 Types World CallbackSpec Simple OAuth Scram Gssapi Session
  Spec_Wire Spec_Simple Spec_Callback Spec_OAuth Proof_Utf8 Proof_OAuth Json Spec_Json Proof_Json.
From Coq Require Import Lia ZArith ZifyN ZifyBool.

(** * The writer *)
Definition esc (s : bytes) : bytes := flat_map j_escape s.
Definition plain (b : byte) : bool := negb (N.ltb (N_of_ascii b) 32) && negb (beq b j_quote) && negb (beq b j_back).

Lemma plain_iff b : plain b = true <-> unescaped b.
Proof.
  unfold plain, unescaped. rewrite !andb_true_iff, !negb_true_iff, N.ltb_ge, !beq_neq. tauto.
Qed.

Lemma escape_plain b : plain b = true -> j_escape b = [b].
Proof. destruct b as [[] [] [] [] [] [] [] []]; vm_compute; intros H; solve [discriminate H|reflexivity]. Qed.

Lemma escape_other b : plain b = false ->
  (exists c, j_escape b = [j_back; c] /\ j_short c = Some b) \/
  (exists a c d e, j_escape b = [j_back; "u"%char; a; c; d; e] /\
     j_hex4 a c d e = Some (N_of_ascii b) /\ utf8_char (N_of_ascii b) = [b] /\ (N_of_ascii b < 32)%N).
Proof.
  destruct b as [[] [] [] [] [] [] [] []]; intros H; try discriminate H; clear H;
    first [left; eexists; split; [reflexivity|vm_compute; reflexivity]
          |right; do 4 eexists; split; [reflexivity|]; repeat split; vm_compute; reflexivity].
Qed.

Lemma escape_says s : says (esc s) s.
Proof.
  induction s as [|b s IH]; cbn [esc flat_map]; [constructor|]. fold (esc s).
  destruct (plain b) eqn:P.
  - rewrite escape_plain by exact P. cbn [app]. constructor; [apply plain_iff, P|exact IH].
  - destruct (escape_other b P) as [[c [-> C]]|[a [c [d [e [-> [X [U L]]]]]]]].
    + cbn [app]. apply says_short; [apply short_iff, C|exact IH].
    + change ([j_back; "u"%char; a; c; d; e] ++ esc s)
        with (chr 92 :: "u"%char :: [a; c; d; e] ++ esc s).
      replace (b :: s) with (utf8_char (N_of_ascii b) ++ s) by (rewrite U; reflexivity). apply says_hex.
      * apply hex4_iff, X.
      * unfold high_surrogate. lia.
      * unfold low_surrogate. lia.
      * exact IH.
Qed.

Lemma escape_none s : Forall unescaped s -> esc s = s.
Proof.
  induction 1 as [|b s B _ IH]; [reflexivity|]. cbn [esc flat_map]. fold (esc s).
  rewrite escape_plain by (apply plain_iff, B). rewrite IH. reflexivity.
Qed.

Lemma plain_dec s : Forall unescaped s \/ (~ Forall unescaped s /\ contains j_back (esc s) = true).
Proof.
  induction s as [|b s IH]; [left; constructor|].
  destruct (plain b) eqn:P.
  - pose proof (proj1 (plain_iff b) P) as U. destruct IH as [IH|[IH C]].
    + left. constructor; assumption.
    + right. split; [intros F; inversion F; contradiction|]. cbn [esc flat_map]. fold (esc s).
      rewrite escape_plain by exact P. unfold contains in *. cbn [app existsb]. rewrite C. apply orb_true_r.
  - right. split.
    + intros F. inversion F as [|? ? U _]; subst. apply plain_iff in U. congruence.
    + cbn [esc flat_map]. destruct (escape_other b P) as [[c [-> _]]|[a [c [d [e [-> _]]]]]]; reflexivity.
Qed.

Lemma j_string_is s : j_string s = quoted (esc s).
Proof. reflexivity. Qed.

(** The members written. *)
Definition written (o : oberr) : list (bytes * bytes) :=
  (n_status, quoted (esc (ob_status o))) ::
  match ob_scope o with Some s => [(n_scope, quoted (esc s))] | None => [] end ++
  match ob_openid o with Some s => [(n_openid, quoted (esc s))] | None => [] end.
Definition member_text (m : bytes * bytes) : bytes := quoted (fst m) ++ ":"%char :: snd m.

Lemma members_text m ms : Forall (fun m => string_body (fst m) /\ json_value (snd m)) (m :: ms) ->
  members1 (member_text m ++ flat_map (fun m => ","%char :: member_text m) ms) (m :: ms).
Proof.
  revert m. induction ms as [|m' ms IH]; intros [k t] F; inversion F as [|? ? [K T] F']; subst; cbn [fst snd] in *.
  - cbn [flat_map]. rewrite app_nil_r. unfold member_text. cbn [fst snd].
    pose proof (me_one [] k [] [] t [] ltac:(constructor) K ltac:(constructor) ltac:(constructor) T ltac:(constructor)) as M.
    cbn [app] in M. rewrite app_nil_r in M. exact M.
  - specialize (IH m' F').
    pose proof (me_more [] k [] [] t [] _ _ ltac:(constructor) K ltac:(constructor) ltac:(constructor) T ltac:(constructor) IH) as M.
    cbn [app] in M. cbn [flat_map]. unfold member_text at 1. cbn [fst snd].
    rewrite <- app_assoc. cbn [app]. exact M.
Qed.

Lemma names_plain : Forall unescaped n_status /\ Forall unescaped n_scope /\ Forall unescaped n_openid.
Proof.
  repeat split; (apply Forall_forall; intros b; cbn; intros H;
    repeat (destruct H as [<-|H]; [apply plain_iff; reflexivity|]); destruct H).
Qed.

Lemma written_text o : json_to o =
  "{"%char :: (member_text (n_status, quoted (esc (ob_status o))) ++
    flat_map (fun m => ","%char :: member_text m) (tl (written o))) ++ lit "}".
Proof.
  unfold json_to, j_member, j_optional, written, member_text. cbn [tl]. rewrite !j_string_is.
  destruct (ob_scope o) as [s|], (ob_openid o) as [u|]; unfold j_member; rewrite ?j_string_is;
    fold n_status n_scope n_openid; cbn [flat_map app fst snd];
    change (lit "{") with ["{"%char]; change (lit ":") with [":"%char]; change (lit ",") with [","%char];
    rewrite (escape_none n_status) by apply names_plain;
    rewrite ?(escape_none n_scope) by apply names_plain;
    rewrite ?(escape_none n_openid) by apply names_plain;
    flat; reflexivity.
Qed.

Lemma written_ok o : text_error o -> error_object any_string (json_to o) o.
Proof.
  intros [TS [TC TO]]. exists (written o). split.
  { exists [], (member_text (n_status, quoted (esc (ob_status o))) ++
      flat_map (fun m => ","%char :: member_text m) (tl (written o))), [].
    split; [constructor|]. split; [constructor|]. split; [|rewrite written_text; reflexivity].
    apply me_some. apply members_text.
    assert (V : forall s, json_value (quoted (esc s))).
    { intros s. apply jv_string. eapply says_body, escape_says. }
    destruct names_plain as [N1 [N2 N3]].
    apply plain_says, says_body in N1, N2, N3.
    constructor; [split; [exact N1|apply V]|]. cbn [written tl].
    apply Forall_app. split; [destruct (ob_scope o)|destruct (ob_openid o)];
      constructor; (split; [assumption|apply V]) || constructor. }
  destruct names_plain as [N1 [N2 N3]]. apply plain_says in N1, N2, N3.
  assert (U : any_string n_status n_status /\ any_string n_scope n_scope /\ any_string n_openid n_openid).
  { repeat split; try assumption; apply utf8_exact; reflexivity. }
  destruct U as [U1 [U2 U3]].
  assert (R : forall s, utf8_text s -> any_string (esc s) s) by (intros s T; split; [apply escape_says|exact T]).
  split.
  { constructor; [exists n_status; exact U1|]. apply Forall_app.
    split; [destruct (ob_scope o)|destruct (ob_openid o)]; constructor; try constructor;
      eexists; eassumption. }
  fold n_status n_scope n_openid.
  assert (D12 : ~ says n_status n_scope) by (eapply other_name; [exact N1|discriminate]).
  assert (D13 : ~ says n_status n_openid) by (eapply other_name; [exact N1|discriminate]).
  assert (D21 : ~ says n_scope n_status) by (eapply other_name; [exact N2|discriminate]).
  assert (D23 : ~ says n_scope n_openid) by (eapply other_name; [exact N2|discriminate]).
  assert (D31 : ~ says n_openid n_status) by (eapply other_name; [exact N3|discriminate]).
  assert (D32 : ~ says n_openid n_scope) by (eapply other_name; [exact N3|discriminate]).
  assert (D0 : forall n, none_named n []) by (intros n ? ? []).
  unfold written. split; [|split].
  - exists (esc (ob_status o)). split; [|apply R, TS]. apply only_cons. left.
    split; [exact N1|]. split; [reflexivity|].
    destruct (ob_scope o), (ob_openid o); cbn [app]; rewrite ?none_cons; auto.
  - destruct (ob_scope o) as [s|].
    + right. exists (quoted (esc s)). split.
      * apply only_cons. right. split; [exact D12|]. cbn [app]. apply only_cons. left.
        split; [exact N2|]. split; [reflexivity|]. destruct (ob_openid o); rewrite ?none_cons; auto.
      * exists (esc s). split; [reflexivity|]. apply R, TC. reflexivity.
    + left. split; [reflexivity|]. apply none_cons. split; [exact D12|].
      destruct (ob_openid o); cbn [app]; rewrite ?none_cons; auto.
  - destruct (ob_openid o) as [s|].
    + right. exists (quoted (esc s)). split.
      * apply only_cons. right. split; [exact D13|].
        destruct (ob_scope o); cbn [app]; rewrite ?only_cons.
        { right. split; [exact D23|]. left. auto. }
        { left. auto. }
      * exists (esc s). split; [reflexivity|]. apply R, TO. reflexivity.
    + left. split; [reflexivity|]. apply none_cons. split; [exact D13|].
      destruct (ob_scope o); cbn [app]; rewrite ?none_cons; auto.
Qed.

(** * Both *)
Lemma plain_all s : forallb plain s = true <-> Forall unescaped s.
Proof.
  rewrite forallb_forall, Forall_forall. split; intros H b I; apply plain_iff, H, I.
Qed.

Lemma borrowed_written s r : utf8_text s ->
  p_borrowed (quoted (esc s) ++ r) = if forallb plain s then Some (s, r) else None.
Proof.
  intros T. destruct (plain_dec s) as [F|[F C]].
  - rewrite (proj2 (plain_all s) F). rewrite escape_none by exact F. apply borrowed_iff.
    exists [], s. split; [constructor|]. split; [split; [reflexivity|split; assumption]|reflexivity].
  - destruct (forallb plain s) eqn:P; [apply plain_all in P; contradiction|].
    unfold p_borrowed. unfold quoted. cbn [app].
    change (chr 34 :: (esc s ++ [chr 34]) ++ r) with ([] ++ j_quote :: (esc s ++ [chr 34]) ++ r).
    rewrite token_at by (reflexivity || constructor). rewrite <- app_assoc. cbn [app].
    rewrite (proj2 (p_str_iff _ (esc s) s r)) by (split; [split; [apply escape_says|exact T]|reflexivity]).
    rewrite C. reflexivity.
Qed.

Lemma opt_written s r : utf8_text s ->
  p_opt (quoted (esc s) ++ r) = if forallb plain s then Some (Some s, r) else None.
Proof.
  intros T. unfold p_opt. rewrite borrowed_written by exact T.
  unfold quoted. cbn [app].
  change (chr 34 :: (esc s ++ [chr 34]) ++ r) with ([] ++ chr 34 :: (esc s ++ [chr 34]) ++ r).
  rewrite token_other by (reflexivity || discriminate || constructor).
  destruct (forallb plain s); reflexivity.
Qed.

Lemma fields_member f fs k t r : any_string k k -> p_fields (S f) fs (member_text (k, t) ++ r) =
  match p_field k fs (t ++ r) with
  | None => None
  | Some (fs', r3) =>
      match token ","%char r3 with
      | Some r4 => p_fields f fs' r4
      | None => option_map (fun rest => (fs', rest)) (token "}"%char r3)
      end
  end.
Proof.
  intros K. cbn [p_fields].
  replace (member_text (k, t) ++ r) with ([] ++ j_quote :: k ++ chr 34 :: [] ++ ":"%char :: t ++ r)
    by (unfold member_text, j_quote; cbn [fst snd]; flat; reflexivity).
  rewrite token_at by (reflexivity || constructor).
  rewrite (proj2 (p_str_iff _ k k _) (conj K eq_refl)).
  rewrite token_at by (reflexivity || constructor). reflexivity.
Qed.

Lemma field_status fs s r : f_status fs = None -> utf8_text s ->
  p_field n_status fs (quoted (esc s) ++ r) =
  if forallb plain s then Some (mk_fields (Some s) (f_scope fs) (f_openid fs), r) else None.
Proof.
  intros N T. unfold p_field. fold n_status. rewrite bytes_eqb_refl, N, borrowed_written by exact T.
  destruct (forallb plain s); reflexivity.
Qed.

Lemma field_scope fs s r : f_scope fs = None -> utf8_text s ->
  p_field n_scope fs (quoted (esc s) ++ r) =
  if forallb plain s then Some (mk_fields (f_status fs) (Some (Some s)) (f_openid fs), r) else None.
Proof.
  intros N T. unfold p_field. fold n_status n_scope.
  replace (bytes_eqb n_scope n_status) with false by reflexivity.
  rewrite bytes_eqb_refl, N, opt_written by exact T.
  destruct (forallb plain s); reflexivity.
Qed.

Lemma field_openid fs s r : f_openid fs = None -> utf8_text s ->
  p_field n_openid fs (quoted (esc s) ++ r) =
  if forallb plain s then Some (mk_fields (f_status fs) (f_scope fs) (Some (Some s)), r) else None.
Proof.
  intros N T. unfold p_field. fold n_status n_scope n_openid.
  replace (bytes_eqb n_openid n_status) with false by reflexivity.
  replace (bytes_eqb n_openid n_scope) with false by reflexivity.
  rewrite bytes_eqb_refl, N, opt_written by exact T.
  destruct (forallb plain s); reflexivity.
Qed.

Lemma comma_at r : token ","%char (","%char :: r) = Some r.
Proof. reflexivity. Qed.
Lemma comma_brace r : token ","%char ("}"%char :: r) = None.
Proof. reflexivity. Qed.
Lemma brace_at r : token "}"%char ("}"%char :: r) = Some r.
Proof. reflexivity. Qed.

Definition all_plain (o : oberr) : bool :=
  forallb plain (ob_status o) &&
  match ob_scope o with Some s => forallb plain s | None => true end &&
  match ob_openid o with Some s => forallb plain s | None => true end.

Lemma all_plain_iff o : all_plain o = true <-> plain_error o.
Proof.
  unfold all_plain, plain_error. rewrite !andb_true_iff, plain_all. split.
  - intros [[A B] C]. split; [exact A|]. split; intros s E; rewrite E in *; apply plain_all; assumption.
  - intros [A [B C]]. split; [split; [exact A|]|].
    + destruct (ob_scope o) as [s|]; [apply plain_all, B; reflexivity|reflexivity].
    + destruct (ob_openid o) as [s|]; [apply plain_all, C; reflexivity|reflexivity].
Qed.

Lemma names_any : any_string n_status n_status /\ any_string n_scope n_scope /\ any_string n_openid n_openid.
Proof.
  destruct names_plain as [A [B C]]. apply plain_says in A, B, C.
  split; [|split]; (split; [assumption|apply utf8_exact; reflexivity]).
Qed.

Lemma from_to o : text_error o -> json_from (json_to o) = if all_plain o then Some o else None.
Proof.
  intros [TS [TC TO]]. destruct names_any as [N1 [N2 N3]]. rewrite written_text. unfold json_from.
  match goal with |- context [token "{"%char ("{"%char :: ?x)] =>
    change (token "{"%char ("{"%char :: x)) with (Some x) end.
  unfold p_object, all_plain, written. cbn [tl].
  match goal with |- context [length ?x] => remember (length x) as n eqn:Hn end.
  assert (L : exists m, n = S (S m)).
  { rewrite !app_length in Hn. unfold member_text, quoted in Hn. cbn [fst snd length app] in Hn.
    rewrite !app_length in Hn. cbn [length] in Hn.
    repeat rewrite app_length in Hn. cbn [length] in Hn. exists (n - 2). lia. }
  destruct L as [m ->]. clear Hn.
  match goal with |- context [token "}"%char ?x] =>
    replace (token "}"%char x) with (@None bytes) by reflexivity end.
  rewrite <- app_assoc. rewrite fields_member by exact N1.
  rewrite field_status by (reflexivity || exact TS).
  destruct (forallb plain (ob_status o)); [|reflexivity]. cbn [andb f_status f_scope f_openid].
  destruct (ob_scope o) as [s|] eqn:ES, (ob_openid o) as [u|] eqn:EO; cbn [flat_map app].
  - rewrite comma_at, app_nil_r. rewrite <- app_assoc. cbn [app].
    rewrite fields_member by exact N2. rewrite field_scope by (reflexivity || (apply TC; reflexivity)).
    destruct (forallb plain s); [|reflexivity]. cbn [andb f_status f_scope f_openid].
    rewrite comma_at. rewrite fields_member by exact N3.
    rewrite field_openid by (reflexivity || (apply TO; reflexivity)).
    destruct (forallb plain u); [|reflexivity]. cbn [f_status f_scope f_openid].
    change (lit "}") with ("}"%char :: []). rewrite comma_brace, brace_at.
    cbn [option_map skip_ws j_flat]. destruct o; cbn in *; subst; reflexivity.
  - rewrite comma_at, app_nil_r.
    rewrite fields_member by exact N2. rewrite field_scope by (reflexivity || (apply TC; reflexivity)).
    destruct (forallb plain s); [|reflexivity]. cbn [andb f_status f_scope f_openid].
    change (lit "}") with ("}"%char :: []). rewrite comma_brace, brace_at.
    cbn [option_map skip_ws j_flat]. destruct o; cbn in *; subst; reflexivity.
  - rewrite comma_at, app_nil_r. rewrite fields_member by exact N3.
    rewrite field_openid by (reflexivity || (apply TO; reflexivity)).
    destruct (forallb plain u); [|reflexivity]. cbn [f_status f_scope f_openid].
    change (lit "}") with ("}"%char :: []). rewrite comma_brace, brace_at.
    cbn [option_map skip_ws j_flat]. destruct o; cbn in *; subst; reflexivity.
  - change (lit "}") with ("}"%char :: []). rewrite comma_brace, brace_at.
    cbn [option_map skip_ws j_flat]. destruct o; cbn in *; subst; reflexivity.
Qed.

Lemma round o o' : text_error o -> json_from (json_to o) = Some o' <-> o' = o /\ plain_error o.
Proof.
  intros T. rewrite from_to by exact T. rewrite <- all_plain_iff.
  destruct (all_plain o); split.
  - intros E. injection E as <-. auto.
  - intros [-> _]. reflexivity.
  - discriminate.
  - intros [_ E]. discriminate.
Qed.

Lemma object_brace R x o : error_object R x o -> exists w r, blank w /\ x = w ++ "{"%char :: r.
Proof. intros [ms [[w [t [w' [W [_ [_ ->]]]]]] _]]. exists w, (t ++ "}"%char :: w'). auto. Qed.

Lemma read_refuted :
  (exists x o, error_object any_string x o /\ json_from x = None) /\
  (exists x o, json_from x = Some o /\ forall o', ~ error_object any_string x o').
Proof.
  split.
  - exists (json_to (mk_oberr [j_back] None None)), (mk_oberr [j_back] None None). split.
    + apply written_ok. split; [apply utf8_exact; reflexivity|]. split; discriminate.
    + reflexivity.
  - exists ("["%char :: j_quote :: j_quote :: lit "]"), (mk_oberr [] None None). split; [reflexivity|].
    intros o' H. apply object_brace in H. destruct H as [w [r [W E]]].
    destruct W as [|b w B W]; [discriminate|]. injection E as <- _.
    cbn in B. intuition discriminate.
Qed.

Lemma json_exchange e e' s msg script out s' c script' r out' c' :
  (forall o, e_json_to e o = json_to o) -> (forall x, e_json_from e' x = json_from x) ->
  s_mech s = XOAuthBearerS OsInitial -> step e s (Some msg) script = (Ok Running, out, s') ->
  s_mech c = XOAuthBearerC OcWaiting -> step e' c (Some out) script' = (r, out', c') ->
  exists err evs, new_events s s' evs /\ answers POAuthBearerValidate evs = [Some err] /\ out' = [] /\
    (text_error err -> plain_error err ->
       exists rest, new_events c c' (EvAction POAuthBearerErrored err [] :: rest) /\
         (r = Ok (Finished true) /\ rest = [EvTaken POAuthBearerErrored] \/ exists x, r = Err x)) /\
    (text_error err -> ~ plain_error err -> new_events c c' [] /\ r = Err (EMech MOAuthBearerSerde)).
Proof.
  intros JT JF S H C H'.
  destruct (oauthbearer_server_ok _ _ _ _ _ _ _ S H) as [p [v [evs [N [A [_ V]]]]]].
  destruct v as [err|]; [|destruct V; discriminate]. destruct V as [_ [-> _]]. rewrite JT in H'.
  assert (X : json_to err <> []) by discriminate.
  destruct (oauthbearer_client_error _ _ _ _ _ _ _ C X H') as [O R]. rewrite JF in R.
  exists err, evs. split; [exact N|]. split; [exact A|]. split; [exact O|]. split; intros T P.
  - rewrite (proj2 (round err err T) (conj eq_refl P)) in R.
    destruct R as [cs [r0 [_ [_ [NE E]]]]]. eexists. split; [exact NE|]. subst r.
    destruct (took POAuthBearerErrored cs).
    + destruct r0 as [[]|]; cbn [returned_ok]; eauto.
    + destruct r0 as [[]|]; cbn [returned_ok]; eauto.
  - destruct (json_from (json_to err)) as [o|] eqn:J.
    + apply round in J; [|exact T]. now destruct J.
    + exact R.
Qed.
