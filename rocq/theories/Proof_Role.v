(** Lemmas about SCRAM messages in the wrong place. *)
From Coq Require Import NArith Lia.
From Verif Require Import Bytes BytesFacts Base64 Utf8 Types World CallbackSpec WorldFacts MonadFacts Num Simple OAuth ScramParser Scram
  Gssapi Session Registry Spec_Simple Spec_OAuth Spec_Wire Spec_ScramText Spec_Scram Spec_Role
  Proof_Simple Proof_Scram Proof_ScramText Proof_ScramMain Proof_Confuse.
Open Scope m_scope.

Definition parsed (k : place) (m : bytes) : Prop :=
  match k with
  | InClientFirst => exists x, client_first_parse m = Ok x
  | InServerFirst => exists x, server_first_parse m = Ok x
  | InClientFinal => exists x, client_final_parse m = Ok x
  | InServerFinal => exists x, server_final_parse m = Ok x
  end.
Definition begins (k : place) : bytes :=
  match k with InClientFirst => lit "nyp" | InServerFirst => lit "r" | InClientFinal => lit "c" | InServerFinal => lit "ve" end.

Lemma parsed_dec k m : parsed k m \/ ~ parsed k m.
Proof.
  destruct k; cbn [parsed].
  - destruct (client_first_parse m); [left; eauto|right; intros [x H]; discriminate..].
  - destruct (server_first_parse m); [left; eauto|right; intros [x H]; discriminate..].
  - destruct (client_final_parse m); [left; eauto|right; intros [x H]; discriminate..].
  - destruct (server_final_parse m); [left; eauto|right; intros [x H]; discriminate..].
Qed.

Lemma parse_fails {L A B} (r : res parseerr A) (f : A -> M L B) (l : L) w :
  ~ (exists x, r = Ok x) ->
  exists x, bind (scram_parse r) f l w = (x, l, w) /\ ((exists y, x = Err (EMech (MScramParse y))) \/ x = Panic).
Proof.
  intros N. unfold bind, scram_parse, of_res, rmap_err. destruct r; [exfalso; eauto|..]; eexists; (split; [reflexivity|eauto]).
Qed.
Lemma unparsed e k s m script r out s' : expects k s -> ~ parsed k m ->
  step e s (Some m) script = (r, out, s') -> unreadable s r out s'.
Proof.
  intros X N H. destruct X as [s a plus Em|s a w Em|s a d Em|s a w Em].
  - apply (step_scram_server _ _ _ _ _ _ _ _ _ Em) in H. destruct H as (st1 & w' & H & -> & ->).
    unfold scram_server_step, bind at 1, getl, bind at 1, setl, bind at 1, locally, handle_client_first in H.
    match type of H with context [bind (scram_parse _) ?f ?l ?w] => destruct (parse_fails (client_first_parse m) f l w N) as (x & E & K) end.
    rewrite E in H. destruct K as [(y & ->)| ->]; injection H as <- <- <-;
      (split; [eauto|split; [reflexivity|unfold new_events; cbn; rewrite app_nil_r; reflexivity]]).
  - apply (step_scram_client _ _ _ _ _ _ _ _ _ Em) in H. destruct H as (st1 & w' & H & -> & ->).
    unfold scram_client_step, bind at 1, getl, bind at 1, setl, bind at 1, handle_server_first in H.
    match type of H with context [bind (scram_parse _) ?f ?l ?w] => destruct (parse_fails (server_first_parse m) f l w N) as (x & E & K) end.
    rewrite E in H. destruct K as [(y & ->)| ->]; injection H as <- <- <-;
      (split; [eauto|split; [reflexivity|unfold new_events; cbn; rewrite app_nil_r; reflexivity]]).
  - apply (step_scram_server _ _ _ _ _ _ _ _ _ Em) in H. destruct H as (st1 & w' & H & -> & ->).
    unfold scram_server_step, bind at 1, getl, bind at 1, setl, bind at 1, handle_client_final in H.
    match type of H with context [bind (scram_parse _) ?f ?l ?w] => destruct (parse_fails (client_final_parse m) f l w N) as (x & E & K) end.
    rewrite E in H. destruct K as [(y & ->)| ->]; injection H as <- <- <-;
      (split; [eauto|split; [reflexivity|unfold new_events; cbn; rewrite app_nil_r; reflexivity]]).
  - apply (step_scram_client _ _ _ _ _ _ _ _ _ Em) in H. destruct H as (st1 & w' & H & -> & ->).
    unfold scram_client_step, bind at 1, getl, bind at 1, setl, bind at 1, handle_server_final in H.
    match type of H with context [bind (scram_parse _) ?f ?l ?w] => destruct (parse_fails (server_final_parse m) f l w N) as (x & E & K) end.
    rewrite E in H. destruct K as [(y & ->)| ->]; injection H as <- <- <-;
      (split; [eauto|split; [reflexivity|unfold new_events; cbn; rewrite app_nil_r; reflexivity]]).
Qed.

(** * First bytes *)

Lemma parsed_first k m : parsed k m -> first_in (begins k) m.
Proof.
  destruct k; cbn [parsed begins].
  - intros (cf & E). destruct cf as [f z user nonce]. apply Proof_Grammar.client_first_exact in E.
    destruct E as (two & t & -> & _). destruct f; (do 2 eexists; split; [reflexivity|]); cbn; auto.
  - intros ([nonce salt iters] & E). apply server_first_parse_exact in E. destruct E as (-> & _).
    do 2 eexists. split; [reflexivity|]. left. reflexivity.
  - intros (cl & E). destruct cl. apply client_final_parse_exact in E. destruct E as (t & -> & _).
    do 2 eexists. split; [reflexivity|]. left. reflexivity.
  - intros (sf & E). unfold server_final_parse, slice2, rbind in E. destruct m as [|b [|b' m]]; [discriminate..|].
    cbn [fst snd] in E. do 2 eexists. split; [reflexivity|]. 
    destruct (bytes_eqb [b; b'] (lit "v=")) eqn:E1.
    + apply bytes_eqb_eq in E1. injection E1 as -> _. left. reflexivity.
    + destruct (bytes_eqb [b; b'] (lit "e=")) eqn:E2; [|discriminate]. apply bytes_eqb_eq in E2. injection E2 as -> _.
      right. left. reflexivity.
Qed.
Lemma begins_apart k k' m : first_in (begins k) m -> first_in (begins k') m -> k = k'.
Proof.
  intros H H'. assert (D : k = k' \/ forall b, In b (begins k) -> In b (begins k') -> False).
  { destruct k, k'; auto; right; cbn; intros b I I'; intuition (subst; discriminate). }
  destruct D as [D|D]; [exact D|]. destruct (first_apart _ _ _ H H' D).
Qed.

Lemma understood_parsed k m : understood k m -> parsed k m.
Proof.
  intros (e & s & script & r & out & s' & X & H & N). destruct (parsed_dec k m) as [P|P]; [exact P|].
  destruct (N (unparsed _ _ _ _ _ _ _ _ X P H)).
Qed.
Theorem one_place k k' m : understood k m -> understood k' m -> k = k'.
Proof. intros H H'. eapply begins_apart; eapply parsed_first, understood_parsed; eassumption. Qed.
Theorem misplaced e k k' s m script r out s' : understood k m -> expects k' s -> k' <> k ->
  step e s (Some m) script = (r, out, s') -> unreadable s r out s'.
Proof.
  intros U X N H. refine (unparsed _ _ _ _ _ _ _ _ X _ H).
  intros P. apply N. eapply begins_apart; [apply parsed_first; exact P|apply parsed_first, understood_parsed, U].
Qed.

(** * What sessions write *)

Lemma final_sent {L} m (l : L) w l' w' : w_out w = [] -> w_script w = [] ->
  send_final m l w = (Ok tt, l', w') -> first_in (begins InServerFinal) (w_out w').
Proof.
  intros O S H. apply send_final_any in H. destruct H as (_ & x & y & E & W & [[_ Z]|[z Z]]); [|discriminate].
  rewrite (wrote_out _ _ _ W), O. rewrite S in Z. rewrite (Z (Forall_nil _)), app_nil_r in E. rewrite <- E.
  destruct m; (do 2 eexists; split; [reflexivity|]); cbn; auto.
Qed.
Lemma hcf_sent {L} e a d m (l : L) w l' w' : w_out w = [] -> w_script w = [] ->
  handle_client_final e a d m l w = (Ok tt, l', w') -> first_in (begins InServerFinal) (w_out w').
Proof.
  intros O S H. unfold handle_client_final in H. inv_bind H. apply scram_parse_ok in H0. destruct H0 as (_ & -> & ->).
  destruct d as [d|]; [|exact (final_sent _ _ _ _ _ O S H)].
  destruct (decode (cl_cb a0)); [|discriminate].
  destruct (negb _); [exact (final_sent _ _ _ _ _ O S H)|].
  destruct (strip_prefix _ _); [|exact (final_sent _ _ _ _ _ O S H)].
  destruct (_ && _); [|exact (final_sent _ _ _ _ _ O S H)].
  destruct (decode_slice _ _); [|discriminate].
  inv_bind H. unfold exact in H0. destruct (Nat.eqb _ _); [|discriminate]. injection H0 as <- <- <-.
  destruct (bytes_eqb _ _); [|exact (final_sent _ _ _ _ _ O S H)].
  inv_bind H. destruct a1. pose proof (final_sent _ _ _ _ _ O S H0) as F.
  unfold validate in H. destruct (run_validate _ _ _) as [[v|] slot]; [discriminate|]. injection H as _ <-. exact F.
Qed.
Lemma sent_first e k s i st m s' : sends k s -> step e s i [] = (Ok st, m, s') -> first_in (begins k) m.
Proof.
  intros X H. destruct X as [s a plus Em|s a plus Em|s a w Em|s a d Em].
  - destruct (client_first_any _ _ _ _ _ _ _ _ _ Em (Forall_nil _) H)
      as (evs & flagt & zpart & data & user & uesc & _ & _ & -> & _ & _ & _ & _ & _ & _ & _ & F).
    destruct plus; [destruct F as [-> _]|destruct F as [-> _]|destruct F as [x ->]];
      (do 2 eexists; split; [reflexivity|]); cbn; auto.
  - destruct i as [i|].
    + destruct (server_first_any _ _ _ _ _ _ _ _ _ Em H)
        as (evs & f & two & z & user & cn & t & data & _ & _ & _ & _ & _ & _ & _ & [(sp & _ & _ & _ & _ & O)|(_ & _ & _ & salt & _ & O)]);
        rewrite (O (Forall_nil _)); (do 2 eexists; split; [reflexivity|]); left; reflexivity.
    + apply (step_scram_server _ _ _ _ _ _ _ _ _ Em) in H. destruct H as (st1 & w' & H & _). discriminate H.
  - destruct i as [i|].
    + destruct w as [cb nonce user].
      destruct (client_second _ _ _ _ _ _ _ _ _ _ _ Em H) as [[_ [Hno _]]|Hc]; [destruct (Hno _ eq_refl)|].
      destruct Hc as [sn [salt64 [salt [iters [n [Hc Hr]]]]]].
      destruct (Hr st eq_refl) as [_ [evs [ck [sk [_ [_ [_ [_ [_ [_ Ho]]]]]]]]]].
      rewrite (Ho (Forall_nil _)). do 2 eexists. split; [reflexivity|]. left. reflexivity.
    + apply (step_scram_client _ _ _ _ _ _ _ _ _ Em) in H. destruct H as (st1 & w' & H & _). discriminate H.
  - destruct i as [i|].
    + apply (step_scram_server _ _ _ _ _ _ _ _ _ Em) in H. destruct H as (st1 & w' & H & -> & _).
      apply server_step2 in H. destruct H as (r1 & l1 & H & [(-> & _)|[(x & _ & K & _)|(_ & K & _)]]); [|discriminate..].
      eapply hcf_sent; [| |exact H]; reflexivity.
    + apply (step_scram_server _ _ _ _ _ _ _ _ _ Em) in H. destruct H as (st1 & w' & H & _). discriminate H.
Qed.
Theorem reflected e k s i st m s' e' k' t script r out t' :
  sends k s -> step e s i [] = (Ok st, m, s') -> expects k' t -> k' <> k ->
  step e' t (Some m) script = (r, out, t') -> unreadable t r out t'.
Proof.
  intros X H Y N H'. refine (unparsed _ _ _ _ _ _ _ _ Y _ H').
  intros P. apply N. eapply begins_apart; [apply parsed_first; exact P|exact (sent_first _ _ _ _ _ _ _ X H)].
Qed.
