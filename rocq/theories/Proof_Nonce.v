(** How nonces are drawn (C111). *)
From Coq Require Import Lia NArith ZArith ZifyN.
From Verif Require Import Bytes BytesFacts Types World CallbackSpec WorldFacts Base64 Base64Facts Num Simple OAuth
  ScramParser Scram Gssapi Session Spec_ScramText Spec_Scram Spec_Random Spec_Nonce MonadFacts Frame
  Proof_Scram Proof_ScramPanic Proof_ScramProps.
Open Scope m_scope.

(** Nothing written, nothing drawn. *)
Definition still (w w' : world) : Prop :=
  w_out w' = w_out w /\ w_script w' = w_script w /\ w_rng w' = w_rng w.
Lemma still_frame : frame still.
Proof. split; unfold still; intuition congruence. Qed.
Lemma still_admits ev : admits still ev.
Proof. intros w. repeat split. Qed.
Lemma still_asks q : asks still q.
Proof. repeat split. Qed.
Lemma still_at {L A} (m : M L A) l w r l1 w1 : keeps still m -> m l w = (r, l1, w1) -> still w w1.
Proof. intros H E. specialize (H l w). rewrite E in H. exact H. Qed.
Ltac stays := unfold_steps; pose proof still_frame as F;
  repeat (first [ keep_step F | apply still_asks | apply still_admits | intros; apply still_admits ]).

Lemma still_cbflag e plus : keeps still (client_cbflag e plus).
Proof. stays. Qed.
Lemma still_push x : keeps still (push_gs2 x).
Proof. stays. Qed.
Lemma still_zid e : keeps still (maybe_need_with e PAuthzId empty_provider authzid_consumer).
Proof. unfold authzid_consumer. stays. Qed.
Lemma still_user e : keeps still (need_with e PAuthId empty_provider (fun authid : bytes => @esc cf_locals authid)).
Proof. stays. Qed.

Lemma first_redraw e f plus l w ws l1 w1 : w_script w = [] ->
  send_client_first e plus l w = (Ok ws, l1, w1) ->
  exists p ws' l1' w1', w_out w1 = w_out w ++ p ++ nonce_from e (w_rng w) /\
    send_client_first (set_rng e f) plus l w = (Ok ws', l1', w1') /\
    w_out w1' = w_out w ++ p ++ nonce_from (set_rng e f) (w_rng w).
Proof.
  intros Z H. rewrite send_client_first_eq in *.
  change (client_cbflag (set_rng e f) plus) with (client_cbflag e plus).
  change (maybe_need_with (set_rng e f) PAuthzId empty_provider authzid_consumer)
    with (maybe_need_with e PAuthzId empty_provider authzid_consumer).
  apply bind_ok in H. destruct H as [u1 [la [wa [H1 H]]]]. rewrite (bind_step _ _ _ _ _ _ _ H1).
  apply still_at in H1; [|apply still_cbflag].
  apply bind_ok in H. destruct H as [u2 [lb [wb [H2 H]]]]. rewrite (bind_step _ _ _ _ _ _ _ H2).
  apply still_at in H2; [|apply still_push].
  apply bind_ok in H. destruct H as [u3 [lc [wc [H3 H]]]]. rewrite (bind_step _ _ _ _ _ _ _ H3).
  apply still_at in H3; [|apply still_zid].
  unfold scf_user in *.
  change (need_with (set_rng e f) PAuthId empty_provider (fun authid : bytes => @esc cf_locals authid))
    with (need_with e PAuthId empty_provider (fun authid : bytes => @esc cf_locals authid)).
  apply bind_ok in H. destruct H as [u4 [ld [wd [H4 H]]]]. rewrite (bind_step _ _ _ _ _ _ _ H4).
  apply still_at in H4; [|apply still_push].
  apply bind_ok in H. destruct H as [user [le [we [H5 H]]]]. rewrite (bind_step _ _ _ _ _ _ _ H5).
  apply still_at in H5; [|apply still_user].
  rewrite (bind_step _ _ _ _ _ _ _ (nonce_ok e _ _)) in H.
  rewrite (bind_step _ _ _ _ _ _ _ (nonce_ok (set_rng e f) _ _)).
  unfold bind at 1, getl in H. unfold bind at 1, getl.
  assert (R : w_rng we = w_rng w /\ w_out we = w_out w /\ w_script we = []).
  { unfold still in *. intuition congruence. }
  destruct R as [R [O S]]. rewrite R in *.
  rewrite (bind_step _ _ _ _ _ _ _ (write_all_vectored_full _ _ (mk_world (w_out we) (w_script we) (w_trace we) (24 + w_rng w) (w_val we)) S)) in H.
  rewrite (bind_step _ _ _ _ _ _ _ (write_all_vectored_full _ _ (mk_world (w_out we) (w_script we) (w_trace we) (24 + w_rng w) (w_val we)) S)).
  apply (f_equal snd) in H. cbn [snd ret] in H. subst w1. exists (fst le ++ lit "n=" ++ user ++ lit ",r=").
  do 3 eexists. split; [|split; [reflexivity|]]; unfold add_out; cbn [w_out concat]; rewrite O;
    rewrite app_nil_r, <- !app_assoc; reflexivity.
Qed.

Lemma client_redraw e f s a plus input st msg s' :
  s_mech s = XScramC a (Some (ScInitial plus)) -> step e s input [] = (Ok st, msg, s') ->
  exists p s'', msg = p ++ nonce_from e (s_rng s) /\
    step (set_rng e f) s input [] = (Ok st, p ++ nonce_from (set_rng e f) (s_rng s), s'').
Proof.
  intros Em H. unfold step, run in *. rewrite Em in *. unfold mech_step, on in *.
  cbv [bind getl setl scram_client_step locally] in *.
  set (w := mk_world [] [] (s_trace s) (s_rng s) (s_val s)) in *.
  destruct (send_client_first e plus ([], None) w) as [[[ws|x|] l1] w1] eqn:E; try discriminate.
  destruct (first_redraw e f plus _ w _ _ _ eq_refl E) as [p [ws' [l1' [w1' [O [E' O']]]]]].
  rewrite E'. cbv [ret] in *. injection H as <- <- <-. rewrite O, O'. exists p. eexists.
  split; reflexivity.
Qed.

(** The indices of the characters of a word. *)
Fixpoint index (b : byte) (l : bytes) : nat :=
  match l with [] => 0 | x :: r => if beq x b then 0 else S (index b r) end.
Lemma index_at b l : In b l -> index b l < length l /\ nth (index b l) l zero = b.
Proof.
  induction l as [|x r IH]; [easy|]. intros [->|H]; cbn [index length].
  - rewrite beq_refl. split; [lia|reflexivity].
  - destruct (beq x b) eqn:E; [apply beq_eq in E; subst; split; [lia|reflexivity]|].
    destruct (IH H). split; [lia|]. exact H1.
Qed.
Definition at_ (w : bytes) (i : nat) (j : nat) : byte := nth (j - i) w zero.

Lemma printable_all b : drawn_char b <-> In b printable.
Proof.
  split.
  - intros [H N]. 
    assert (A : forallb (fun n => implb (negb (beq (ascii_of_N (N.of_nat n)) ","%char)) (contains (ascii_of_N (N.of_nat n)) printable))
      (seq 33 89) = true) by (vm_compute; reflexivity).
    rewrite forallb_forall in A. specialize (A (N.to_nat (N_of_ascii b))).
    rewrite N2Nat.id, ascii_N_embedding in A.
    assert (I : In (N.to_nat (N_of_ascii b)) (seq 33 89)) by (apply in_seq; lia).
    apply A in I. destruct (beq b ","%char) eqn:E; [apply beq_eq in E; contradiction|].
    cbn [negb implb] in I. unfold contains in I. apply existsb_exists in I. destruct I as [x [I1 I2]].
    apply beq_eq in I2. subst x. exact I1.
  - intros H.
    assert (A : Forall (fun b => N.leb 33 (N_of_ascii b) && N.leb (N_of_ascii b) 121 && negb (beq b ","%char) = true) printable).
    { apply Forall_forall. apply forallb_forall. vm_compute. reflexivity. }
    rewrite Forall_forall in A. apply A in H. apply andb_prop in H. destruct H as [H1 H2].
    apply andb_prop in H1. destruct H1 as [H0 H1]. split; [lia|].
    intros ->. discriminate.
Qed.

Lemma pick_index b : drawn_char b -> (N.of_nat (index b printable) < 88)%N /\ pick (N.of_nat (index b printable)) = b.
Proof.
  intros H. apply printable_all, index_at in H. destruct H as [H1 H2].
  change (length printable) with 88 in H1. split; [lia|]. unfold pick.
  change (N.of_nat (length printable)) with 88%N. rewrite N.mod_small by lia. rewrite Nat2N.id. exact H2.
Qed.

(** A generator that makes [w] the nonce and [t] the salt. *)
Definition rigged (i : nat) (w t : bytes) (j : nat) : N :=
  if j <? i + 24 then N.of_nat (index (at_ w i j) printable) else N_of_ascii (at_ t (i + 24) j).

Lemma map_at (w : bytes) i n : length w = n -> map (at_ w i) (seq i n) = w.
Proof.
  intros <-. unfold at_. apply (nth_ext _ _ zero zero).
  - rewrite map_length, seq_length. reflexivity.
  - intros k K. rewrite map_length, seq_length in K.
    transitivity (nth k (map (fun j => nth (j - i) w zero) (seq i (length w))) ((fun j => nth (j - i) w zero) i)).
    { apply nth_indep. rewrite map_length, seq_length. exact K. }
    rewrite (map_nth (fun j => nth (j - i) w zero)), seq_nth by exact K.
    f_equal. lia.
Qed.
Lemma at_drawn w i j : length w = 24 -> Forall drawn_char w -> i <= j < i + 24 -> drawn_char (at_ w i j).
Proof. intros L D J. unfold at_. rewrite Forall_forall in D. apply D, nth_In. apply (Nat.lt_le_trans _ 24); [lia|exact (Nat.eq_le_incl _ _ (eq_sym L))]. Qed.

Lemma rigged_nonce e i w t : length w = 24 -> Forall drawn_char w ->
  nonce_from (set_rng e (rigged i w t)) i = w.
Proof.
  intros L D. unfold nonce_from. 
  transitivity (map (at_ w i) (seq i 24)); [|apply map_at; exact L].
  apply map_ext_in. intros j J. apply in_seq in J. change (e_rng (set_rng e (rigged i w t)) j) with (rigged i w t j). unfold rigged.
  destruct (Nat.ltb_spec j (i + 24)) as [_|?]; [|lia].
  apply pick_index, at_drawn; assumption.
Qed.
Lemma rigged_salt e i w t : length t = 32 -> dummy_salt (set_rng e (rigged i w t)) (24 + i) = t.
Proof.
  intros L. unfold dummy_salt. 
  transitivity (map (at_ t (24 + i)) (seq (24 + i) 32)); [|apply map_at; exact L].
  apply map_ext_in. intros j J. apply in_seq in J. change (e_rng (set_rng e (rigged i w t)) j) with (rigged i w t j). unfold rigged.
  destruct (Nat.ltb_spec j (i + 24)) as [?|_]; [lia|].
  rewrite N.mod_small, ascii_N_embedding; [rewrite (Nat.add_comm i 24); reflexivity|].
  apply N_ascii_bounded.
Qed.
Lemma rigged_indices i w t : length w = 24 -> Forall drawn_char w ->
  indices (rigged i w t) 88 i 24 /\ indices (rigged i w t) 256 (i + 24) 32.
Proof.
  intros L D. split; intros j J; unfold rigged.
  - destruct (Nat.ltb_spec j (i + 24)) as [_|?]; [|lia]. apply pick_index, at_drawn; assumption.
  - destruct (Nat.ltb_spec j (i + 24)) as [?|_]; [lia|]. apply N_ascii_bounded.
Qed.

Theorem client_even e s a plus input st msg s' w :
  s_mech s = XScramC a (Some (ScInitial plus)) -> step e s input [] = (Ok st, msg, s') ->
  length w = 24 -> Forall drawn_char w ->
  exists f p s'', indices f 88 (s_rng s) 24 /\ step (set_rng e f) s input [] = (Ok st, p ++ w, s'').
Proof.
  intros Em H L D. pose (f := rigged (s_rng s) w []).
  destruct (client_redraw e f _ _ _ _ _ _ _ Em H) as [p [s'' [_ E]]].
  unfold f in E at 2. rewrite rigged_nonce in E by assumption.
  exists f, p, s''. split; [apply rigged_indices; assumption|exact E].
Qed.

Lemma suffix_eq {A} (p q a b : list A) : length a = length b -> p ++ a = q ++ b -> a = b.
Proof.
  intros L E. assert (length p = length q) by (apply (f_equal (@length A)) in E; rewrite !app_length in E; lia).
  revert q E H. induction p as [|x p IH]; intros [|y q] E H; try discriminate; [exact E|].
  injection E as _ E. injection H as H. exact (IH _ E H).
Qed.

Theorem client_once e f g s a plus input script script' st st' p q w s' s'' :
  s_mech s = XScramC a (Some (ScInitial plus)) -> no_zero script -> no_zero script' ->
  indices f 88 (s_rng s) 24 -> indices g 88 (s_rng s) 24 -> length w = 24 ->
  step (set_rng e f) s input script = (Ok st, p ++ w, s') ->
  step (set_rng e g) s input script' = (Ok st', q ++ w, s'') ->
  Forall drawn_char w /\ same_draws f g (s_rng s) 24.
Proof.
  intros Em Z Z' F G L H H'.
  apply (fresh_client_nonce _ _ _ _ _ _ _ _ _ Em Z) in H.
  apply (fresh_client_nonce _ _ _ _ _ _ _ _ _ Em Z') in H'.
  destruct H as [h [u [E [_ [_ [_ N]]]]]]. destruct H' as [h' [u' [E' [_ [_ [_ N']]]]]].
  unfold first_bare in *.
  assert (A : w = nonce_from (set_rng e f) (s_rng s)).
  { rewrite !app_assoc in E. apply suffix_eq in E; [exact E|congruence]. }
  assert (B : w = nonce_from (set_rng e g) (s_rng s)).
  { rewrite !app_assoc in E'. apply suffix_eq in E'; [exact E'|congruence]. }
  split.
  - rewrite A. apply Forall_forall. intros b I. unfold nonce_from in I. apply in_map_iff in I.
    destruct I as [k [<- _]]. apply printable_all, pick_printable.
  - intros j J. rewrite A in B. pose proof (nonce_from_inj _ _ _ _ B (j - s_rng s)) as I.
    cbn [e_rng set_rng] in I. replace (s_rng s + (j - s_rng s)) with j in I by lia.
    rewrite !N.mod_small in I by (apply F || apply G; lia). apply I. lia.
Qed.

Lemma pick_in e i b : In b (nonce_from e i) -> In b printable.
Proof. intros I. unfold nonce_from in I. apply in_map_iff in I. destruct I as [k [<- _]]. apply pick_printable. Qed.

(** ** Server *)
Local Opaque nonce_from dummy_salt default_iterations encode.

Lemma still_bind e plus cf c : keeps still (hcf_bind e plus cf c).
Proof. unfold hcf_bind. stays. Qed.
Lemma still_stored e a c : keeps still (maybe_need_with e PScramStoredPassword c (stored_consumer a)).
Proof. unfold stored_consumer. stays. Qed.

Lemma known_sends cf sn it salt k1 k2 h w : w_script w = [] ->
  exists d h' w', hcf_known cf sn it salt k1 k2 h w = (Ok d, h', w').
Proof.
  intros Z. unfold hcf_known. rewrite (bind_step _ _ _ _ _ _ _ (write_all_vectored_full _ _ w Z)).
  unfold bind, getl, ret. do 3 eexists. reflexivity.
Qed.
Lemma unknown_sends e cf sn h w : w_script w = [] ->
  exists d h' w', hcf_unknown e cf sn h w = (Ok d, h', w').
Proof.
  intros Z. unfold hcf_unknown. rewrite (bind_step _ _ _ _ _ _ _ (random_ok e _ _)).
  generalize (dummy_salt e (w_rng w)) as t. intros t.
  set (w0 := mk_world _ _ _ _ _). assert (Z0 : w_script w0 = []) by exact Z. clearbody w0.
  rewrite (bind_step _ _ _ _ _ _ _ (write_all_vectored_full _ _ w0 Z0)).
  unfold ret. do 3 eexists. reflexivity.
Qed.
Lemma sends e cf params h w : w_script w = [] ->
  exists d h' w', hcf_send e cf params h w = (Ok d, h', w').
Proof.
  intros Z. rewrite hcf_send_eq. generalize (nonce_from e (w_rng w)) as sn. intros sn.
  set (w0 := mk_world _ _ _ _ _). assert (Z0 : w_script w0 = []) by exact Z. clearbody w0.
  destruct params as [[[[it salt] k1] k2]|]; [apply known_sends|apply unknown_sends]; exact Z0.
Qed.

Lemma send_redraw e f cf params l w d l1 w1 : w_script w = [] ->
  hcf_send e cf params l w = (Ok d, l1, w1) ->
  exists salt iters d' l1' w1',
    w_out w1 = w_out w ++ server_first_text (cf_nonce cf ++ nonce_from e (w_rng w)) salt iters /\
    hcf_send (set_rng e f) cf params l w = (Ok d', l1', w1') /\
    ((d <> None /\
      w_out w1' = w_out w ++ server_first_text (cf_nonce cf ++ nonce_from (set_rng e f) (w_rng w)) salt iters) \/
     (d = None /\
      w_out w1' = w_out w ++ server_first_text (cf_nonce cf ++ nonce_from (set_rng e f) (w_rng w))
                    (encode (dummy_salt (set_rng e f) (24 + w_rng w))) iters)).
Proof.
  intros Z H. assert (NZ : no_zero (w_script w)) by (rewrite Z; constructor).
  destruct (sends (set_rng e f) cf params l w Z) as [d' [l' [w' H']]].
  pose proof (hcf_send_ok _ _ _ _ _ _ _ _ H) as [n [out [D K]]].
  pose proof (hcf_send_ok _ _ _ _ _ _ _ _ H') as [n' [out' [D' K']]].
  destruct params as [[[[it sa] k1] k2]|].
  - destruct K as [_ [-> K]]. destruct K' as [_ [-> K']]. rewrite (K NZ) in D. rewrite (K' NZ) in D'.
    eexists sa, it, _, l', w'. split; [apply D|]. split; [exact H'|]. left. split; [discriminate|apply D'].
  - destruct K as [_ [-> [t [-> K]]]]. destruct K' as [_ [-> [t' [-> K']]]]. rewrite (K NZ) in D. rewrite (K' NZ) in D'.
    eexists _, _, _, l', w'. split; [apply D|]. split; [exact H'|]. right. split; [reflexivity|apply D'].
Qed.

Lemma step_first e s a plus m d l w1 : s_mech s = XScramS a (Some (SsClientFirst plus)) ->
  handle_client_first e a plus m [] (mk_world [] [] (s_trace s) (s_rng s) (s_val s)) = (Ok d, l, w1) ->
  step e s (Some m) [] = (Ok Running, w_out w1,
    mk_session (XScramS a (Some (SsClientFinal d))) (w_trace w1) (w_rng w1) (w_val w1)).
Proof.
  intros Em E. unfold step, run. rewrite Em. unfold mech_step, on.
  cbv [bind getl setl scram_server_step locally ret]. rewrite E. reflexivity.
Qed.

Lemma server_redraw e f s a plus m st out s' :
  s_mech s = XScramS a (Some (SsClientFirst plus)) -> step e s (Some m) [] = (Ok st, out, s') ->
  exists cn salt iters s'',
    out = server_first_text (cn ++ nonce_from e (s_rng s)) salt iters /\
    let out' t := server_first_text (cn ++ nonce_from (set_rng e f) (s_rng s)) t iters in
    ((~ server_pretends s' a /\ step (set_rng e f) s (Some m) [] = (Ok st, out' salt, s'')) \/
     (server_pretends s' a /\
      step (set_rng e f) s (Some m) []
      = (Ok st, out' (encode (dummy_salt (set_rng e f) (24 + s_rng s))), s''))).
Proof.
  intros Em H. pose proof (step_first (set_rng e f) s a plus m) as SF.
  unfold step, run in H. rewrite Em in H. unfold mech_step, on in H.
  cbv [bind getl setl scram_server_step locally ret] in H.
  set (w := mk_world [] [] (s_trace s) (s_rng s) (s_val s)) in *.
  destruct (handle_client_first e a plus m [] w) as [[[d|x|] l1] w1] eqn:E; try discriminate.
  rewrite handle_client_first_eq in E. rewrite (handle_client_first_eq (set_rng e f)) in SF.
  apply bind_ok in E. destruct E as [cf [la [wa [H1 E]]]]. setoid_rewrite (bind_step _ _ _ _ _ _ _ H1) in SF.
  apply still_at in H1; [|stays].
  apply bind_ok in E. destruct E as [u2 [lb [wb [H2 E]]]]. setoid_rewrite (bind_step _ _ _ _ _ _ _ H2) in SF.
  apply still_at in H2; [|stays]. cbv zeta in E |- *.
  change (hcf_bind (set_rng e f)) with (hcf_bind e).
  apply bind_ok in E. destruct E as [u3 [lc [wc [H3 E]]]]. setoid_rewrite (bind_step _ _ _ _ _ _ _ H3) in SF.
  apply still_at in H3; [|apply still_bind].
  set (c := scram_server_provider (cf_username cf) (cf_authzid cf)) in *.
  change (maybe_need_with (set_rng e f) PScramStoredPassword c (stored_consumer a))
    with (maybe_need_with e PScramStoredPassword c (stored_consumer a)).
  apply bind_ok in E. destruct E as [params [ld [wd [H4 E]]]]. setoid_rewrite (bind_step _ _ _ _ _ _ _ H4) in SF.
  apply still_at in H4; [|apply still_stored].
  assert (R : w_rng wd = s_rng s /\ w_out wd = [] /\ w_script wd = []).
  { assert (S : still w wd) by (unfold still in *; intuition congruence).
    destruct S as [S1 [S2 S3]]. split; [exact S3|]. split; [exact S1|exact S2]. }
  destruct R as [R [O Z]].
  destruct (send_redraw e f cf params ld wd d l1 w1 Z E) as [salt [iters [d' [l1' [w1' [O1 [E' K]]]]]]].
  specialize (SF _ _ _ Em E'). rewrite R, O in *. cbn [app] in *.
  exists (cf_nonce cf), salt, iters. injection H as <- <- <-.
  eexists. split; [exact O1|]. cbv zeta. unfold server_pretends. cbn [s_mech].
  destruct K as [[N O2]|[-> O2]]; rewrite O2 in SF; [left|right]; (split; [|exact SF]).
  - intros [= Q]. exact (N Q).
  - reflexivity.
Qed.

Theorem server_even e s a plus m st out s' w t :
  s_mech s = XScramS a (Some (SsClientFirst plus)) -> step e s (Some m) [] = (Ok st, out, s') ->
  length w = 24 -> Forall drawn_char w -> length t = 32 ->
  exists f cn salt iters s'',
    indices f 88 (s_rng s) 24 /\ indices f 256 (s_rng s + 24) 32 /\
    step (set_rng e f) s (Some m) [] = (Ok st, server_first_text (cn ++ w) salt iters, s'') /\
    (server_pretends s' a -> salt = encode t).
Proof.
  intros Em H L D T. pose (f := rigged (s_rng s) w t).
  destruct (server_redraw e f _ _ _ _ _ _ _ Em H) as [cn [salt [iters [s'' [_ K]]]]]. cbv zeta in K.
  assert (N : nonce_from (set_rng e f) (s_rng s) = w) by (apply rigged_nonce; assumption).
  assert (N2 : dummy_salt (set_rng e f) (24 + s_rng s) = t) by (apply rigged_salt; assumption).
  rewrite N, N2 in K. destruct (rigged_indices (s_rng s) w t L D) as [I1 I2].
  exists f, cn. destruct K as [[P K]|[P K]].
  - exists salt, iters, s''. repeat split; auto. intros Q. destruct (P Q).
  - exists (encode t), iters, s''. repeat split; auto.
Qed.

Lemma cut_eq {A} (p q a b : list A) : length p = length q -> p ++ a = q ++ b -> p = q /\ a = b.
Proof.
  intros H. revert q H. induction p as [|x p IH]; intros [|y q] H E; try discriminate; [auto|].
  injection E as <- E. injection H as H. destruct (IH _ H E) as [-> ->]. auto.
Qed.

Theorem server_once e f g s a plus m script script' st st' out s' s'' :
  s_mech s = XScramS a (Some (SsClientFirst plus)) -> no_zero script -> no_zero script' ->
  indices f 88 (s_rng s) 24 -> indices g 88 (s_rng s) 24 ->
  step (set_rng e f) s (Some m) script = (Ok st, out, s') ->
  step (set_rng e g) s (Some m) script' = (Ok st', out, s'') ->
  same_draws f g (s_rng s) 24.
Proof.
  intros Em Z Z' F G H H'.
  apply (fresh_server_nonce _ _ _ _ _ _ _ _ _ Em Z) in H.
  apply (fresh_server_nonce _ _ _ _ _ _ _ _ _ Em Z') in H'.
  destruct H as [cf [sa [it [P [E [_ [_ N]]]]]]]. destruct H' as [cf' [sa' [it' [P' [E' [_ [_ N']]]]]]].
  rewrite P in P'. injection P' as <-. rewrite E in E'. unfold server_first_text in E'.
  assert (B : nonce_from (set_rng e f) (s_rng s) = nonce_from (set_rng e g) (s_rng s)).
  { rewrite !app_assoc in E'. rewrite <- !app_assoc in E'. apply app_inv_head in E'.
    apply app_inv_head in E'. apply cut_eq in E'; [apply E'|congruence]. }
  intros j J. pose proof (nonce_from_inj _ _ _ _ B (j - s_rng s)) as I.
  cbn [e_rng set_rng] in I. replace (s_rng s + (j - s_rng s)) with j in I by lia.
  rewrite !N.mod_small in I by (apply F || apply G; lia). apply I. lia.
Qed.

Lemma pretended e s a plus m script st out s' :
  s_mech s = XScramS a (Some (SsClientFirst plus)) -> no_zero script ->
  step e s (Some m) script = (Ok st, out, s') -> server_pretends s' a ->
  exists cf, client_first_parse m = Ok cf /\
    out = server_first_text (cf_nonce cf ++ nonce_from e (s_rng s))
            (encode (dummy_salt e (24 + s_rng s))) (lit "16384").
Proof.
  intros Em Z H P. apply (server_first_any _ _ _ _ _ _ _ _ _ Em) in H.
  destruct H as (evs & f & two & z & user & cn & t & data & _ & _ & _ & _ & C & _ & _ & K).
  apply fields_parse in C. eexists. split; [exact C|]. cbn [cf_nonce]. cbv zeta in K.
  destruct K as [(sp & _ & _ & W & _)|(_ & _ & _ & salt & -> & O)]; [|exact (O Z)].
  unfold server_waits in W. unfold server_pretends in P. rewrite P in W. discriminate.
Qed.

Local Transparent dummy_salt.
Lemma salt_inj e e' n n' : dummy_salt e n = dummy_salt e' n' ->
  forall k, k < 32 -> N.modulo (e_rng e (n + k)) 256 = N.modulo (e_rng e' (n' + k)) 256.
Proof.
  unfold dummy_salt. intros E k K.
  assert (A : forall x i, nth k (map (fun k => ascii_of_N (N.modulo (e_rng x k) 256)) (seq i 32)) zero
    = ascii_of_N (N.modulo (e_rng x (i + k)) 256)).
  { intros x i.
    transitivity (nth k (map (fun k => ascii_of_N (N.modulo (e_rng x k) 256)) (seq i 32))
      ((fun k => ascii_of_N (N.modulo (e_rng x k) 256)) 0)).
    { apply nth_indep. rewrite map_length, seq_length. exact K. }
    rewrite (map_nth (fun k => ascii_of_N (N.modulo (e_rng x k) 256))), seq_nth by exact K. reflexivity. }
  apply (f_equal (fun l => nth k l zero)) in E. rewrite !A in E.
  apply (f_equal N_of_ascii) in E. rewrite !N_ascii_embedding in E by (apply N.mod_lt; discriminate). exact E.
Qed.
Local Opaque dummy_salt.

Theorem salt_once e f g s a plus m script script' st st' out s' s'' :
  s_mech s = XScramS a (Some (SsClientFirst plus)) -> no_zero script -> no_zero script' ->
  indices f 256 (s_rng s + 24) 32 -> indices g 256 (s_rng s + 24) 32 ->
  step (set_rng e f) s (Some m) script = (Ok st, out, s') -> server_pretends s' a ->
  step (set_rng e g) s (Some m) script' = (Ok st', out, s'') -> server_pretends s'' a ->
  same_draws f g (s_rng s + 24) 32.
Proof.
  intros Em Z Z' F G H P H' P'.
  destruct (pretended _ _ _ _ _ _ _ _ _ Em Z H P) as [cf [C O]].
  destruct (pretended _ _ _ _ _ _ _ _ _ Em Z' H' P') as [cf' [C' O']].
  rewrite C in C'. injection C' as <-. rewrite O in O'. unfold server_first_text in O'.
  assert (B : dummy_salt (set_rng e f) (24 + s_rng s) = dummy_salt (set_rng e g) (24 + s_rng s)).
  { rewrite <- !app_assoc in O'. do 2 apply app_inv_head in O'.
    apply cut_eq in O'.
    2: { transitivity 24; [|symmetry]; exact (proj2 (nonce_from_legal _ _)). }
    destruct O' as [_ O']. apply app_inv_head in O'. apply app_inv_tail in O'. exact (encode_inj _ _ O'). }
  intros j J. pose proof (salt_inj _ _ _ _ B (j - (24 + s_rng s))) as I.
  cbn [e_rng set_rng] in I. replace (24 + s_rng s + (j - (24 + s_rng s))) with j in I by lia.
  rewrite !N.mod_small in I by (apply F || apply G; lia). apply I. lia.
Qed.

(** ** The characters that are never drawn *)
Lemma z_legal : legal_nonce (repeat "z"%char 24).
Proof. unfold legal_nonce. apply Forall_forall. intros b I. apply repeat_spec in I. subst b. vm_compute. repeat split; intros; discriminate. Qed.

Lemma client_never_z e s a plus input script st p s' :
  s_mech s = XScramC a (Some (ScInitial plus)) -> no_zero script ->
  step e s input script <> (Ok st, p ++ repeat "z"%char 24, s').
Proof.
  intros Em Z H. apply (fresh_client_nonce _ _ _ _ _ _ _ _ _ Em Z) in H.
  destruct H as [h [u [E [_ [_ [_ N]]]]]]. unfold first_bare in E. rewrite !app_assoc in E.
  apply suffix_eq in E; [|rewrite N; reflexivity].
  assert (I : In "z"%char printable).
  { apply (pick_in e (s_rng s)). rewrite <- E. left. reflexivity. }
  apply printable_all in I. destruct I as [[_ I] _]. vm_compute in I. apply I. reflexivity.
Qed.
