(** Facts about the local state of a mechanism that every computation preserves. *)
From Verif Require Import Bytes Types World CallbackSpec WorldFacts MonadFacts Simple OAuth Scram
  Gssapi Session Frame.
Open Scope m_scope.

(** [m] preserves [P] of the local state, whatever the outcome. *)
Definition lkeeps {L A} (P : L -> Prop) (m : M L A) : Prop :=
  forall l w, P l -> P (snd (fst (m l w))).

(** [m] preserves [P] or ends with a result satisfying [R]. *)
Definition ends {L A} (P : L -> Prop) (R : res serr A -> Prop) (m : M L A) : Prop :=
  forall l w, P l -> P (snd (fst (m l w))) \/ R (fst (fst (m l w))).

Section Local.
Context {L : Type} (P : L -> Prop).

Lemma lkeeps_same {A} (m : M L A) : (forall l w, snd (fst (m l w)) = l) -> lkeeps P m.
Proof. intros H l w Hl. rewrite H. exact Hl. Qed.
Lemma lkeeps_ret {A} (a : A) : lkeeps P (ret a).
Proof. apply lkeeps_same; reflexivity. Qed.
Lemma lkeeps_fail {A} x : lkeeps P (@fail L A x).
Proof. apply lkeeps_same; reflexivity. Qed.
Lemma lkeeps_panic {A} : lkeeps P (@panic L A).
Proof. apply lkeeps_same; reflexivity. Qed.
Lemma lkeeps_getl : lkeeps P getl.
Proof. apply lkeeps_same; reflexivity. Qed.
Lemma lkeeps_setl x : P x -> lkeeps P (setl x).
Proof. intros H l w _. exact H. Qed.
Lemma lkeeps_of_res {A} (r : res serr A) : lkeeps P (of_res r).
Proof. apply lkeeps_same; reflexivity. Qed.
Lemma lkeeps_log ev : lkeeps P (log ev).
Proof. apply lkeeps_same; reflexivity. Qed.
Lemma lkeeps_bind {A B} (m : M L A) (f : A -> M L B) :
  lkeeps P m -> (forall a, lkeeps P (f a)) -> lkeeps P (bind m f).
Proof.
  intros Hm Hf l w Hl. unfold bind. specialize (Hm l w Hl).
  destruct (m l w) as [[[a|x|] l1] w1]; simpl in *; auto. apply Hf. exact Hm.
Qed.
Lemma lkeeps_locally {L' A} (l0 : L') (m : M L' A) : lkeeps P (locally l0 m).
Proof.
  apply lkeeps_same. intros l w. unfold locally. destruct (m l0 w) as [[[]]]; reflexivity.
Qed.
Lemma lkeeps_write_all data : lkeeps P (write_all data).
Proof.
  apply lkeeps_same. intros l w. unfold write_all. destruct (write_all_fuel _ _ _); reflexivity.
Qed.
Lemma lkeeps_write_all_vectored bufs : lkeeps P (write_all_vectored bufs).
Proof.
  apply lkeeps_same. intros l w. unfold write_all_vectored. destruct bufs; [reflexivity|].
  destruct (vec_loop _ _ _ _); reflexivity.
Qed.
Lemma lkeeps_write_json e x : lkeeps P (write_json e x).
Proof.
  apply lkeeps_same. intros l w. unfold write_json, write_all.
  destruct (write_all_fuel _ _ _) as [[]]; reflexivity.
Qed.
Lemma lkeeps_ob_write_kv kv : lkeeps P (ob_write_kv kv).
Proof.
  induction kv as [|[k v] r IH]; [apply lkeeps_ret|]. cbn [ob_write_kv].
  apply lkeeps_bind; [apply lkeeps_write_all_vectored|]. intros; exact IH.
Qed.
Lemma lkeeps_draws e n : lkeeps P (draws e n).
Proof.
  induction n as [|n IH]; [apply lkeeps_ret|]. cbn [draws].
  apply lkeeps_bind; [apply lkeeps_same; reflexivity|]. intros x.
  apply lkeeps_bind; [exact IH|]. intros; apply lkeeps_ret.
Qed.
Lemma lkeeps_action e q c v : lkeeps P (action e q c v).
Proof.
  apply lkeeps_same. intros l w. unfold action. destruct (run_action _ _ _ _) as [[r slot] tr].
  destruct (mask_early r); [reflexivity|]. destruct slot; reflexivity.
Qed.
Lemma lkeeps_validate e c : lkeeps P (validate e c).
Proof.
  apply lkeeps_same. intros l w. unfold validate. destruct (run_validate _ _ _) as [[] slot];
    reflexivity.
Qed.
Lemma lkeeps_ignore {A} (m : M L A) : lkeeps P m -> lkeeps P (ignore m).
Proof.
  intros H l w Hl. specialize (H l w Hl). unfold ignore. destruct (m l w) as [[[]]]; exact H.
Qed.
Lemma lkeeps_maybe_need_with {G} e q c (f : pval q -> M L G) :
  (forall v, lkeeps P (f v)) -> lkeeps P (maybe_need_with e q c f).
Proof.
  intros Hf l w Hl.
  destruct (maybe_need_with e q c f l w) as [[r l'] w'] eqn:E. simpl.
  apply maybe_need_with_inv in E.
  destruct E as [cs r Hc Hr|v cs1 cs2 g r l1 w1 H1 H2 Ef Hr|v cs1 cs2 x r l1 w1 H1 H2 Ef Hr
                |v cs1 l1 w1 H1 Ef]; [exact Hl|..];
    pose proof (Hf v _ (add_events (EvRequest q c :: cs1 ++ [EvAnswer q v]) w) Hl) as K;
    rewrite Ef in K; exact K.
Qed.
Lemma lkeeps_need_with {G} e q c (f : pval q -> M L G) :
  (forall v, lkeeps P (f v)) -> lkeeps P (need_with e q c f).
Proof.
  intros Hf. unfold need_with. apply lkeeps_bind; [apply lkeeps_maybe_need_with; exact Hf|].
  intros [g|]; [apply lkeeps_ret|apply lkeeps_fail].
Qed.
Lemma lkeeps_maybe_need_cb_data {G} e name c (f : bytes -> M L G) :
  (forall v, lkeeps P (f v)) -> lkeeps P (maybe_need_cb_data e name c f).
Proof.
  intros Hf. unfold maybe_need_cb_data. apply lkeeps_bind; [apply lkeeps_log|]. intros _.
  destruct (e_chan e name).
  - apply lkeeps_bind; [apply Hf|]. intros; apply lkeeps_ret.
  - apply lkeeps_maybe_need_with; assumption.
Qed.
Lemma lkeeps_need_cb_data {G} e name c (f : bytes -> M L G) :
  (forall v, lkeeps P (f v)) -> lkeeps P (need_cb_data e name c f).
Proof.
  intros Hf. unfold need_cb_data. apply lkeeps_bind; [apply lkeeps_maybe_need_cb_data; exact Hf|].
  intros [g|]; [apply lkeeps_ret|apply lkeeps_fail].
Qed.

Lemma ends_lkeeps {A} R (m : M L A) : lkeeps P m -> ends P R m.
Proof. intros H l w Hl. left. apply H. exact Hl. Qed.
Lemma ends_bind {A B} R (m : M L A) (f : A -> M L B) :
  lkeeps P m -> (forall a, ends P R (f a)) -> ends P R (bind m f).
Proof.
  intros Hm Hf l w Hl. unfold bind. specialize (Hm l w Hl).
  destruct (m l w) as [[[a|x|] l1] w1]; simpl in *; auto.
  apply Hf. exact Hm.
Qed.
Lemma ends_set_ret {A} (R : res serr A -> Prop) x a : R (Ok a) -> ends P R (setl x ;;; ret a).
Proof. intros H l w _. right. exact H. Qed.
End Local.

Ltac lkeep_step :=
  lazymatch goal with
  | |- lkeeps _ (ret _) => apply lkeeps_ret
  | |- lkeeps _ (fail _) => apply lkeeps_fail
  | |- lkeeps _ panic => apply lkeeps_panic
  | |- lkeeps _ getl => apply lkeeps_getl
  | |- lkeeps _ (setl _) => apply lkeeps_setl
  | |- lkeeps _ (log _) => apply lkeeps_log
  | |- lkeeps _ (of_res _) => apply lkeeps_of_res
  | |- lkeeps _ (bind _ _) => apply lkeeps_bind; [|intros ?]
  | |- lkeeps _ (locally _ _) => apply lkeeps_locally
  | |- lkeeps _ (ignore _) => apply lkeeps_ignore
  | |- lkeeps _ (need_with _ _ _ _) => apply lkeeps_need_with; intros ?
  | |- lkeeps _ (maybe_need_with _ _ _ _) => apply lkeeps_maybe_need_with; intros ?
  | |- lkeeps _ (need_cb_data _ _ _ _) => apply lkeeps_need_cb_data; intros ?
  | |- lkeeps _ (maybe_need_cb_data _ _ _ _) => apply lkeeps_maybe_need_cb_data; intros ?
  | |- lkeeps _ (action _ _ _ _) => apply lkeeps_action
  | |- lkeeps _ (validate _ _) => apply lkeeps_validate
  | |- lkeeps _ (write_all_vectored _) => apply lkeeps_write_all_vectored
  | |- lkeeps _ (write_all _) => apply lkeeps_write_all
  | |- lkeeps _ (write_json _ _) => apply lkeeps_write_json
  | |- lkeeps _ (ob_write_kv _) => apply lkeeps_ob_write_kv
  | |- lkeeps _ (draws _ _) => apply lkeeps_draws
  | |- lkeeps _ (match ?x with _ => _ end) => destruct x
  | |- lkeeps _ (scram_parse _) => unfold scram_parse
  | |- lkeeps _ (scram_proto _) => unfold scram_proto
  | |- lkeeps _ (exact _ _) => unfold exact
  | |- lkeeps _ (gss_try _) => unfold gss_try
  | |- lkeeps _ gss_err => unfold gss_err
  end.
