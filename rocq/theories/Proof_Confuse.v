(** Lemmas about messages read by more than one mechanism. *)
From Coq Require Import Lia.
From Verif Require Import Bytes Base64 Utf8 Types World CallbackSpec WorldFacts MonadFacts Num Simple OAuth ScramParser Scram
  Gssapi Session Registry Spec_Simple Spec_OAuth Spec_Wire Spec_ScramText Spec_Scram Spec_Grammar Spec_Bearer Spec_Confuse
  Proof_Simple Proof_OAuth Proof_Scram Proof_ScramText Proof_Grammar Proof_Bearer.
Open Scope m_scope.

Lemma no_news s s' : new_events s s' [] -> s_trace s' = s_trace s.
Proof. unfold new_events. intros ->. apply app_nil_r. Qed.

(** * What each of them takes *)

Lemma takes_plain m : takes FPlain m ->
  exists z a p, m = plain_message z a p /\ nul_free z /\ nul_free a /\ nul_free p.
Proof.
  intros (e & s & script & r & out & s' & W & H & N). inversion W; subst.
  destruct (plain_server_exact _ _ _ _ _ _ _ H0 H) as [_ [(z & a & p & c & (a0 & p0 & E & _ & Z & A & P & _) & _)|(_ & K & _)]].
  - exists z, a0, p0. auto.
  - exfalso. apply N, no_news, K.
Qed.
Lemma takes_xoauth2 m : takes FXOAuth2 m -> exists u t, m = xoauth2_message u t.
Proof.
  intros (e & s & script & r & out & s' & W & H & N). inversion W; subst.
  destruct (xoauth2_step _ _ _ _ _ _ _ H0 H) as (evs & K & [(u & t & E & _)|(-> & _)]); [eauto|].
  exfalso. apply N, no_news, K.
Qed.
Lemma takes_oauthbearer m : takes FOAuthBearer m -> exists z t pairs, readable m z t pairs.
Proof.
  intros (e & s & script & r & out & s' & W & H & N). inversion W; subst.
  destruct (bearer_step _ _ _ _ _ _ _ H0 H) as (evs & K & [(z & t & p & E & _)|(-> & _)]); [eauto|].
  exfalso. apply N, no_news, K.
Qed.
Lemma takes_scram m : takes FScram m -> exists f two z user nonce t, client_first_fields m f two z user nonce t.
Proof.
  intros (e & s & script & r & out & s' & W & H & N). inversion W; subst.
  destruct (client_first_parse m) as [[f z user nonce]|x|] eqn:E.
  - apply client_first_exact in E. destruct E as (two & t & E). exists f, two, z, user, nonce, t. exact E.
  - exfalso. apply N. unfold step, run in H. rewrite H0 in H.
    unfold mech_step, bind at 1, getl, on, scram_server_step, bind, getl, setl, locally, handle_client_first, scram_parse in H.
    rewrite E in H. injection H as _ _ <-. reflexivity.
  - exfalso. apply N. unfold step, run in H. rewrite H0 in H.
    unfold mech_step, bind at 1, getl, on, scram_server_step, bind, getl, setl, locally, handle_client_first, scram_parse in H.
    rewrite E in H. injection H as _ _ <-. reflexivity.
Qed.

(** * Comparisons *)

Lemma nul_in_plain z a p : In nul (plain_message z a p).
Proof. unfold plain_message. apply in_or_app. right. left. reflexivity. Qed.
Lemma not_plain m : nul_free m -> ~ takes FPlain m.
Proof. intros F H. apply takes_plain in H. destruct H as (z & a & p & -> & _). apply F, nul_in_plain. Qed.

(** The first byte tells XOAUTH2 from the messages with a GS2 header. *)
Definition first_in (l : bytes) (m : bytes) : Prop := exists b r, m = b :: r /\ In b l.
Lemma first_xoauth2 m : takes FXOAuth2 m -> first_in (lit "u") m.
Proof. intros H. apply takes_xoauth2 in H. destruct H as (u & t & ->). do 2 eexists. split; [reflexivity|]. left. reflexivity. Qed.
Lemma first_scram m : takes FScram m -> first_in (lit "nyp") m.
Proof.
  intros H. apply takes_scram in H. destruct H as (f & two & z & user & nonce & t & -> & _).
  destruct f; (do 2 eexists; split; [reflexivity|]); cbn; auto.
Qed.
Lemma first_oauthbearer m : takes FOAuthBearer m -> first_in (lit "n") m.
Proof.
  intros H. apply takes_oauthbearer in H. destruct H as (z & t & pairs & h & -> & (r & -> & _) & _).
  do 2 eexists. split; [reflexivity|]. left. reflexivity.
Qed.
Lemma first_apart l l' m : first_in l m -> first_in l' m -> (forall b, In b l -> In b l' -> False) -> False.
Proof. intros (b & r & -> & I) (b' & r' & E & I') D. injection E as <- _. eauto. Qed.

Theorem xoauth2_apart m : takes FXOAuth2 m -> ~ takes FScram m /\ ~ takes FOAuthBearer m.
Proof.
  intros H. apply first_xoauth2 in H. split; intros K; [apply first_scram in K|apply first_oauthbearer in K];
    apply (first_apart _ _ _ H K); cbn; intros b [<-|[]]; intuition discriminate.
Qed.

(** * Messages of one mechanism only *)

Theorem plain_only a p : nul_free a -> nul_free p -> only FPlain (plain_message [] a p).
Proof.
  intros A P k H.
  assert (F : first_in [nul] (plain_message [] a p)) by (do 2 eexists; split; [reflexivity|]; left; reflexivity).
  destruct k; [reflexivity| | |]; exfalso; [apply first_xoauth2 in H|apply first_oauthbearer in H|apply first_scram in H];
    apply (first_apart _ _ _ F H); cbn; intros b [<-|[]]; intuition discriminate.
Qed.
Lemma nul_free_app x y : nul_free (x ++ y) <-> nul_free x /\ nul_free y.
Proof. exact (Proof_Bearer.free_app nul x y). Qed.
Lemma nul_free_b x : forallb (fun b => negb (Ascii.eqb b nul)) x = true -> nul_free x.
Proof. exact (lit_free nul x). Qed.
Theorem xoauth2_only u t : nul_free u -> nul_free t -> only FXOAuth2 (xoauth2_message u t).
Proof.
  intros U T k H.
  assert (F : first_in (lit "u") (xoauth2_message u t)) by (do 2 eexists; split; [reflexivity|]; left; reflexivity).
  destruct k; [|reflexivity| |]; exfalso.
  - revert H. apply not_plain. unfold xoauth2_message.
    apply nul_free_app. split; [apply nul_free_b; reflexivity|]. apply nul_free_app. split; [exact U|].
    change (nul_free ((chr 1 :: lit "auth=Bearer ") ++ t ++ [chr 1; chr 1])).
    apply nul_free_app. split; [apply nul_free_b; reflexivity|]. apply nul_free_app. split; [exact T|apply nul_free_b; reflexivity].
  - apply first_oauthbearer in H. apply (first_apart _ _ _ F H). cbn. intros b [<-|[]]. intuition discriminate.
  - apply first_scram in H. apply (first_apart _ _ _ F H). cbn. intros b [<-|[]]. intuition discriminate.
Qed.

Lemma last_soh m : takes FOAuthBearer m -> last m zero = chr 1.
Proof.
  intros H. apply takes_oauthbearer in H. destruct H as (z & t & pairs & h & -> & _).
  rewrite app_assoc, (app_assoc _ [chr 1] [chr 1] : _ ++ [chr 1; chr 1] = _). apply last_last.
Qed.
Lemma nonce_last x y : legal_nonce y -> last (x ++ "="%char :: y) zero <> chr 1.
Proof.
  intros N. destruct y as [|b y] using rev_ind.
  - rewrite last_last. discriminate.
  - clear IHy. replace (x ++ "="%char :: y ++ [b]) with ((x ++ "="%char :: y) ++ [b]) by (rewrite <- app_assoc; reflexivity).
    rewrite last_last. intros ->. apply Forall_app in N. destruct N as [_ N]. inversion N as [|? ? [K _] _]. subst.
    vm_compute in K. destruct K as [K _]. apply K. reflexivity.
Qed.
Lemma legal_no_nul y : legal_nonce y -> nul_free y.
Proof.
  intros N I. unfold legal_nonce in N. rewrite Forall_forall in N. destruct (N _ I) as [[K _] _]. vm_compute in K. apply K. reflexivity.
Qed.
Lemma flag_no_nul f : legal_flag f -> nul_free (flag_text f).
Proof.
  destruct f as [| |name]; [intros _; apply nul_free_b; reflexivity|intros _; apply nul_free_b; reflexivity|].
  intros [_ H]. change (nul_free (lit "p=" ++ name)). apply nul_free_app. split; [apply nul_free_b; reflexivity|].
  intros I. rewrite forallb_forall in H. apply H in I. discriminate I.
Qed.

Theorem scram_only m f two z user nonce :
  client_first_fields m f two z user nonce [] -> nul_free user ->
  nul_free (match z with Some z => two ++ z | None => [] end) -> only FScram m.
Proof.
  intros F U Z k H. pose proof F as (E & _ & L & N & _).
  destruct k; [| | |reflexivity]; exfalso.
  - revert H. apply not_plain. rewrite E, app_nil_r. unfold first_bare.
    repeat (apply nul_free_app; split); auto using flag_no_nul, legal_no_nul; apply nul_free_b; reflexivity.
  - assert (K : first_in (lit "nyp") m).
    { rewrite E. destruct f; (do 2 eexists; split; [reflexivity|]); cbn; auto. }
    apply first_xoauth2 in H. apply (first_apart _ _ _ H K). cbn. intros b [<-|[]]. intuition discriminate.
  - apply last_soh in H. revert H. rewrite E, app_nil_r. unfold first_bare.
    change (lit ",r=" ++ nonce) with ((lit ",r" ++ ["="%char]) ++ nonce). rewrite <- (app_assoc (lit ",r")).
    rewrite !app_assoc. rewrite <- app_assoc. apply (nonce_last _ _ N).
Qed.

Lemma comma_unique a b x y : free ","%char a -> free ","%char b -> a ++ ","%char :: x = b ++ ","%char :: y -> x = y.
Proof.
  revert b. induction a as [|c a IH]; intros [|d b] A B E; cbn in E.
  - injection E as E. exact E.
  - injection E as <- _. exfalso. apply B. left. reflexivity.
  - injection E as -> _. exfalso. apply A. left. reflexivity.
  - injection E as _ E. apply (IH b); [intros I; apply A; right; exact I|intros I; apply B; right; exact I|exact E].
Qed.
Lemma saslname_plain x : saslname x -> free ","%char x /\ nul_free x.
Proof. intros [(_ & _ & C & Z) _]. split; assumption. Qed.
Lemma pairs_no_nul pairs : Forall (fun p => key_text (fst p) /\ value_chars (snd p)) pairs ->
  nul_free (concat (map kv_text pairs)).
Proof.
  induction 1 as [|[k v] pairs [[_ K] V] _ IH]; [intros []|]. cbn [map concat]. apply nul_free_app. split; [|exact IH].
  unfold kv_text. cbn [fst snd] in *. intros [I|I]; [discriminate I|]. apply in_app_or in I. destruct I as [I|[I|I]].
  - rewrite Forall_forall in K. apply K in I. destruct I as [[I _]|[I _]]; vm_compute in I; apply I; reflexivity.
  - discriminate I.
  - unfold value_chars in V. rewrite Forall_forall in V. apply V in I. destruct I as [[I _]|I].
    + vm_compute in I. apply I. reflexivity.
    + vm_compute in I. intuition discriminate.
Qed.
Theorem oauthbearer_only m z pairs : is_response m z pairs -> only FOAuthBearer m.
Proof.
  intros (E & Z & P) k H.
  assert (F : first_in (lit "n") m) by (rewrite E; do 2 eexists; split; [reflexivity|]; left; reflexivity).
  destruct k; [| |reflexivity|]; exfalso.
  - revert H. apply not_plain. rewrite E. unfold gs2_text.
    repeat (apply nul_free_app; split); auto using pairs_no_nul; try (apply nul_free_b; reflexivity).
    destruct z as [x|]; [|intros []]. apply nul_free_app. split; [apply nul_free_b; reflexivity|].
    apply saslname_plain. apply Z. reflexivity.
  - apply first_xoauth2 in H. apply (first_apart _ _ _ H F). cbn. intros b [<-|[]]. intuition discriminate.
  - apply takes_scram in H. destruct H as (f & two & z' & user & nonce & t & E' & _ & _ & _ & _ & C & _).
    rewrite E in E'. unfold gs2_text in E'. destruct f; cbn in E'; try discriminate E'. injection E' as E'.
    assert (A : free ","%char (match z with Some z => lit "a=" ++ z | None => [] end)).
    { destruct z as [x|]; [|intros []]. apply Proof_Bearer.free_app. split; [apply lit_free; reflexivity|].
      apply saslname_plain. apply Z. reflexivity. }
    rewrite <- app_assoc in E'. cbn [app] in E'.
    apply (comma_unique _ _ _ _ A C) in E'. destruct pairs as [|p pairs]; discriminate E'.
Qed.
