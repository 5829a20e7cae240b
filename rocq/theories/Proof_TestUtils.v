(** Lemmas for C118. *)
From Coq Require Import List.
From Verif Require Import Bytes BytesFacts Types World Session Registry Custom TestUtils Spec_Registry.
Import ListNotations.

Lemma test_fold offered : forall s1 s2,
  fold_left (fun ss o => map (fun s => sel_select s o) ss) offered [s1; s2] =
  [fold_left sel_select offered s1; fold_left sel_select offered s2].
Proof. induction offered as [|o l IH]; intros s1 s2; [reflexivity|]. cbn [fold_left map]. apply IH. Qed.
Lemma match_done d offered : fold_left sel_select offered (SelDone d) = SelDone d.
Proof. induction offered as [|o l IH]; [reflexivity|exact IH]. Qed.
Lemma match_in d offered : In (d_name d) offered -> fold_left sel_select offered (NothingMatches d) = SelDone d.
Proof.
  induction offered as [|o l IH]; intros H; [destruct H|]. cbn [fold_left sel_select].
  destruct (bytes_eqb o (d_name d)) eqn:E; [apply match_done|]. apply IH.
  destruct H as [->|H]; [|exact H]. rewrite bytes_eqb_refl in E. discriminate E.
Qed.
Lemma match_out d offered : ~ In (d_name d) offered -> fold_left sel_select offered (NothingMatches d) = NothingMatches d.
Proof.
  induction offered as [|o l IH]; intros H; [reflexivity|]. cbn [fold_left sel_select].
  destruct (bytes_eqb o (d_name d)) eqn:E.
  - apply bytes_eqb_eq in E. exfalso. apply H. left. exact E.
  - apply IH. intros K. apply H. right. exact K.
Qed.
Theorem test_select cb offered :
  (In (d_name rsasltest_sf) offered ->
     exists i, client_start test_registry cb default_prefer offered = Ok (i, rsasltest_sf)) /\
  (~ In (d_name rsasltest_sf) offered -> In (d_name rsasltest_cf) offered ->
     exists i, client_start test_registry cb default_prefer offered = Ok (i, rsasltest_cf)) /\
  (~ In (d_name rsasltest_sf) offered -> ~ In (d_name rsasltest_cf) offered ->
     client_start test_registry cb default_prefer offered = Err NoSharedMechanism).
Proof.
  unfold client_start, registry_select.
  change (filter_map (d_select cb) test_registry) with [NothingMatches rsasltest_cf; NothingMatches rsasltest_sf].
  rewrite test_fold.
  assert (D : In (d_name rsasltest_cf) offered \/ ~ In (d_name rsasltest_cf) offered).
  { destruct (in_dec (list_eq_dec Ascii.ascii_dec) (d_name rsasltest_cf) offered); auto. }
  split; [|split].
  - intros H. rewrite (match_in _ _ H). destruct D as [D|D]; [rewrite (match_in _ _ D)|rewrite (match_out _ _ D)];
      eexists; reflexivity.
  - intros N H. rewrite (match_out _ _ N), (match_in _ _ H). eexists; reflexivity.
  - intros N N'. rewrite (match_out _ _ N), (match_out _ _ N'). reflexivity.
Qed.
Theorem test_start n : (exists i d, server_start test_registry n = Ok (i, d)) <->
  n = d_name rsasltest_cf \/ n = d_name rsasltest_sf.
Proof.
  split.
  - intros (i & d & H). unfold server_start in H.
    change (get_available test_registry) with [rsasltest_cf; rsasltest_sf] in H. cbn [find] in H.
    destruct (bytes_eqb (d_name rsasltest_cf) n) eqn:E; [left; symmetry; now apply bytes_eqb_eq|].
    destruct (bytes_eqb (d_name rsasltest_sf) n) eqn:E'; [right; symmetry; now apply bytes_eqb_eq|discriminate H].
  - intros [->| ->]; do 2 eexists; vm_compute; reflexivity.
Qed.
Theorem test_sessions reg d :
  (test_client_session d = Panic <-> d_has_client d = false) /\
  (test_server_session reg d = Panic <-> d_has_server d = false).
Proof.
  unfold test_client_session, test_server_session.
  destruct d as [a [|]| | | | | | | |c]; cbn [d_client d_server d_has_client d_has_server];
    try (split; split; intros H; discriminate H).
  destruct (cu_client c), (cu_server c); repeat split; congruence.
Qed.
