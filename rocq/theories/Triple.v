(** Pre- and postconditions about a mechanism's local state and the number of validations. *)
From Coq Require Import Lia.
From Verif Require Import Bytes Types World CallbackSpec WorldFacts MonadFacts Simple OAuth Scram
  Gssapi Session Frame.
Open Scope m_scope.

Definition nval (w : world) : nat := length (validations (w_trace w)).

(** Started where [P] holds, [m] ends with [Q] if it succeeds and with [X] otherwise. *)
Definition triple {L A} (P : L -> nat -> Prop) (Q : A -> L -> nat -> Prop) (X : L -> nat -> Prop)
    (m : M L A) : Prop :=
  forall l w, P l (nval w) ->
    match m l w with
    | (Ok a, l', w') => Q a l' (nval w')
    | (_, l', w') => X l' (nval w')
    end.

Lemma nval_events evs w : nval (add_events evs w) = nval w + length (validations evs).
Proof. unfold nval. cbn. rewrite validations_app, app_length. reflexivity. Qed.
Lemma nval_closures cs w : only_closures cs -> nval (add_events cs w) = nval w.
Proof. intros H. rewrite nval_events, validations_closures by exact H. cbn. lia. Qed.
Lemma nval_wrote p w w' : wrote p w w' -> nval w' = nval w.
Proof. intros H. unfold nval. rewrite (wrote_trace _ _ _ H). reflexivity. Qed.

Section Triple.
Context {L : Type} (X : L -> nat -> Prop).

Lemma t_ret {A} (Q : A -> L -> nat -> Prop) a : triple (Q a) Q X (ret a).
Proof. intros l w H. exact H. Qed.
Lemma t_fail {A} (Q : A -> L -> nat -> Prop) x : triple X Q X (fail x).
Proof. intros l w H. exact H. Qed.
Lemma t_panic {A} (Q : A -> L -> nat -> Prop) : triple X Q X panic.
Proof. intros l w H. exact H. Qed.
Lemma t_setl (Q : unit -> L -> nat -> Prop) x : triple (fun _ n => Q tt x n) Q X (setl x).
Proof. intros l w H. exact H. Qed.
Lemma t_conseq {A} (P P' : L -> nat -> Prop) Q (m : M L A) :
  triple P' Q X m -> (forall l n, P l n -> P' l n) -> triple P Q X m.
Proof. intros H HP l w Hl. apply H, HP, Hl. Qed.
Lemma t_bind {A B} P (R : A -> L -> nat -> Prop) (Q : B -> L -> nat -> Prop) m f :
  triple P R X m -> (forall a, triple (R a) Q X (f a)) -> triple P Q X (bind m f).
Proof.
  intros Hm Hf l w Hl. unfold bind. specialize (Hm l w Hl).
  destruct (m l w) as [[[a|x|] l1] w1]; [apply Hf; exact Hm|exact Hm|exact Hm].
Qed.

(** Computations that leave local state and number of validations alone. *)
Definition still {A} (m : M L A) : Prop :=
  forall l w, match m l w with (_, l', w') => l' = l /\ nval w' = nval w end.
Lemma t_still {A} (P : L -> nat -> Prop) (m : M L A) : still m -> (forall l n, P l n -> X l n) ->
  triple P (fun _ => P) X m.
Proof.
  intros H HX l w Hl. specialize (H l w). destruct (m l w) as [[[a|x|] l1] w1];
    destruct H as [-> ->]; auto.
Qed.

Lemma still_ret {A} (a : A) : still (ret a).
Proof. split; reflexivity. Qed.
Lemma still_fail {A} x : still (@fail L A x).
Proof. split; reflexivity. Qed.
Lemma still_panic {A} : still (@panic L A).
Proof. split; reflexivity. Qed.
Lemma still_of_res {A} (r : res serr A) : still (of_res r).
Proof. split; reflexivity. Qed.
Lemma still_getl : still getl.
Proof. split; reflexivity. Qed.
Lemma still_log ev : (forall c, ev <> EvValidate c) -> still (log ev).
Proof.
  intros H l w. split; [reflexivity|]. rewrite add_event_events, nval_events.
  destruct ev; cbn; try lia. exfalso; eapply H; reflexivity.
Qed.
Lemma still_bind {A B} (m : M L A) (f : A -> M L B) :
  still m -> (forall a, still (f a)) -> still (bind m f).
Proof.
  intros Hm Hf l w. unfold bind. specialize (Hm l w).
  destruct (m l w) as [[[a|x|] l1] w1]; destruct Hm as [-> E]; auto.
  specialize (Hf a l w1). destruct (f a l w1) as [[r l2] w2]. destruct Hf as [-> E2].
  split; [reflexivity|congruence].
Qed.
Lemma still_write_all data : still (write_all data).
Proof.
  intros l w. destruct (write_all_spec data l w) as [p [q [w' [_ [Hw [[-> _]|[x ->]]]]]]];
    (split; [reflexivity|apply (nval_wrote _ _ _ Hw)]).
Qed.
Lemma still_write_all_vectored bufs : still (write_all_vectored bufs).
Proof.
  intros l w. destruct (write_all_vectored_spec bufs l w) as [p [q [w' [_ [Hw [[-> _]|[x ->]]]]]]];
    (split; [reflexivity|apply (nval_wrote _ _ _ Hw)]).
Qed.
Lemma still_write_json e x : still (write_json e x).
Proof.
  intros l w. unfold write_json. pose proof (still_write_all (e_json_to e x) l w) as H.
  destruct (write_all _ l w) as [[[]]]; exact H.
Qed.
Lemma still_ob_write_kv kv : still (ob_write_kv kv).
Proof.
  induction kv as [|[k v] r IH]; [apply still_ret|]. cbn [ob_write_kv].
  apply still_bind; [apply still_write_all_vectored|]. intros; exact IH.
Qed.
Lemma still_action e q c v : still (action e q c v).
Proof.
  intros l w. unfold action.
  pose proof (run_action_taken q (e_cb e (w_trace w) (e_sd e) c (RAction q)) (Some v)
    (w_trace w ++ [EvAction q v c])) as [evs [Hf Ev]].
  destruct (run_action _ _ _ _) as [[r slot] tr]. cbn in Ev.
  assert (H : length (validations tr) = nval w).
  { rewrite Ev, !validations_app, !app_length. unfold nval. cbn.
    replace (validations evs) with (@nil ctx); [cbn; lia|].
    clear - Hf. induction Hf as [|ev r -> _ IH]; [reflexivity|]. exact IH. }
  destruct (mask_early r); [split; [reflexivity|exact H]|].
  destruct slot; (split; [reflexivity|exact H]).
Qed.
Lemma still_ignore {A} (m : M L A) : still m -> still (ignore m).
Proof.
  intros H l w. specialize (H l w). unfold ignore. destruct (m l w) as [[[]]]; exact H.
Qed.
Lemma still_maybe_need_with {G} e q c (f : pval q -> M L G) :
  (forall v, still (f v)) -> still (maybe_need_with e q c f).
Proof.
  intros Hf l w. destruct (maybe_need_with e q c f l w) as [[r l'] w'] eqn:E.
  apply maybe_need_with_inv in E.
  assert (R : forall cs ev, only_closures cs -> (forall c, ev <> EvValidate c) ->
    nval (add_events (EvRequest q c :: cs ++ [ev]) w) = nval w).
  { intros cs ev Hc Hev. rewrite nval_events. cbn [validations]. rewrite validations_app,
      validations_closures by exact Hc. destruct ev; cbn; try lia. exfalso; eapply Hev; reflexivity. }
  destruct E as [cs r Hc Hr|v cs1 cs2 g r l1 w1 H1 H2 Ef Hr|v cs1 cs2 x r l1 w1 H1 H2 Ef Hr
                |v cs1 l1 w1 H1 Ef].
  - split; [reflexivity|]. rewrite nval_events. cbn [validations].
    rewrite validations_closures by exact Hc. cbn; lia.
  - pose proof (Hf v l (add_events (EvRequest q c :: cs1 ++ [EvAnswer q v]) w)) as K.
    rewrite Ef in K. destruct K as [-> K]. split; [reflexivity|].
    rewrite nval_closures, K by exact H2. apply R; [exact H1|discriminate].
  - pose proof (Hf v l (add_events (EvRequest q c :: cs1 ++ [EvAnswer q v]) w)) as K.
    rewrite Ef in K. destruct K as [-> K]. split; [reflexivity|].
    rewrite nval_closures, K by exact H2. apply R; [exact H1|discriminate].
  - pose proof (Hf v l (add_events (EvRequest q c :: cs1 ++ [EvAnswer q v]) w)) as K.
    rewrite Ef in K. destruct K as [-> K]. split; [reflexivity|].
    rewrite K. apply R; [exact H1|discriminate].
Qed.
Lemma still_need_with {G} e q c (f : pval q -> M L G) :
  (forall v, still (f v)) -> still (need_with e q c f).
Proof.
  intros Hf. unfold need_with. apply still_bind; [apply still_maybe_need_with; exact Hf|].
  intros [g|]; [apply still_ret|apply still_fail].
Qed.

(** A request whose consumer may change the local state. *)
Lemma t_need_with {G} e q c (P : L -> nat -> Prop) (Q : G -> L -> nat -> Prop) (f : pval q -> M L G) :
  (forall v, triple P Q X (f v)) -> (forall l n, P l n -> X l n) ->
  (forall g l n, Q g l n -> X l n) -> triple P Q X (need_with e q c f).
Proof.
  intros Hf HP HQ l w Hl. unfold need_with, bind.
  destruct (maybe_need_with e q c f l w) as [[r l'] w'] eqn:E.
  apply maybe_need_with_inv in E.
  assert (R : forall cs v, only_closures cs ->
    nval (add_events (EvRequest q c :: cs ++ [EvAnswer q v]) w) = nval w).
  { intros cs v Hc. rewrite nval_events. cbn [validations]. rewrite validations_app,
      validations_closures by exact Hc. cbn; lia. }
  destruct E as [cs r Hc Hr|v cs1 cs2 g r l1 w1 H1 H2 Ef Hr|v cs1 cs2 x r l1 w1 H1 H2 Ef Hr
                |v cs1 l1 w1 H1 Ef].
  - assert (K : nval (add_events (EvRequest q c :: cs) w) = nval w).
    { rewrite nval_events. cbn [validations]. rewrite validations_closures by exact Hc. cbn; lia. }
    destruct Hr as [->|[x ->]]; cbn [fail]; rewrite K; apply HP; exact Hl.
  - pose proof (Hf v l (add_events (EvRequest q c :: cs1 ++ [EvAnswer q v]) w)) as K.
    rewrite R in K by exact H1. specialize (K Hl). rewrite Ef in K.
    destruct Hr as [->|[->|[x ->]]]; cbn [ret fail]; rewrite nval_closures by exact H2;
      [exact K|eapply HQ; exact K|eapply HQ; exact K].
  - pose proof (Hf v l (add_events (EvRequest q c :: cs1 ++ [EvAnswer q v]) w)) as K.
    rewrite R in K by exact H1. specialize (K Hl). rewrite Ef in K.
    destruct Hr as [->|[y ->]]; cbn [fail]; rewrite nval_closures by exact H2; exact K.
  - pose proof (Hf v l (add_events (EvRequest q c :: cs1 ++ [EvAnswer q v]) w)) as K.
    rewrite R in K by exact H1. specialize (K Hl). rewrite Ef in K. exact K.
Qed.

Lemma t_validate e c (Q : unit -> L -> nat -> Prop) :
  (forall l n, Q tt l n -> X l n) -> triple (fun l n => Q tt l (S n)) Q X (validate e c).
Proof.
  intros HQ l w Hl. unfold validate. destruct (run_validate _ _ _) as [[x|] slot];
    unfold nval in *; cbn [w_trace]; rewrite validations_app, app_length; cbn;
    rewrite Nat.add_1_r; [apply HQ|]; exact Hl.
Qed.
End Triple.

(** Local computations do not touch the outer state. *)
Definition vsame (w w' : world) : Prop := nval w' = nval w.
Lemma vsame_frame : frame vsame.
Proof. split; unfold vsame; congruence. Qed.
Lemma vsame_admits ev : (forall c, ev <> EvValidate c) -> admits vsame ev.
Proof.
  intros H w. unfold vsame. rewrite nval_events. destruct ev; cbn; try lia.
  exfalso; eapply H; reflexivity.
Qed.
Lemma vsame_asks q : asks vsame q.
Proof. repeat split; intros; apply vsame_admits; discriminate. Qed.
Lemma vsame_writes : writes vsame.
Proof. intros p w w' H. apply (nval_wrote _ _ _ H). Qed.
Lemma vsame_draws : draws_ok vsame.
Proof. intros w. reflexivity. Qed.
Lemma still_locally {L L' A} (l0 : L') (m : M L' A) :
  keeps vsame m -> still (L := L) (locally l0 m).
Proof.
  intros H l w. unfold locally. specialize (H l0 w).
  destruct (m l0 w) as [[[a|x|] l1] w1]; split; auto.
Qed.

Ltac vsame_go :=
  pose proof vsame_frame as F; unfold_steps;
  repeat (first
    [ keep_step F | apply vsame_asks | apply vsame_writes | apply vsame_draws
    | intros; apply vsame_admits; discriminate ]).

(** One structural step of a [still] proof. *)
Ltac still_step :=
  lazymatch goal with
  | |- still (ret _) => apply still_ret
  | |- still (fail _) => apply still_fail
  | |- still panic => apply still_panic
  | |- still getl => apply still_getl
  | |- still (of_res _) => apply still_of_res
  | |- still (bind _ _) => apply still_bind; [|intros ?]
  | |- still (locally _ _) => apply still_locally; vsame_go
  | |- still (ignore _) => apply still_ignore
  | |- still (need_with _ _ _ _) => apply still_need_with; intros ?
  | |- still (maybe_need_with _ _ _ _) => apply still_maybe_need_with; intros ?
  | |- still (action _ _ _ _) => apply still_action
  | |- still (write_all_vectored _) => apply still_write_all_vectored
  | |- still (write_all _) => apply still_write_all
  | |- still (write_json _ _) => apply still_write_json
  | |- still (ob_write_kv _) => apply still_ob_write_kv
  | |- still (match ?x with _ => _ end) => destruct x
  | |- still (scram_parse _) => unfold scram_parse
  | |- still (scram_proto _) => unfold scram_proto
  | |- still (exact _ _) => unfold exact
  | |- still (gss_try _) => unfold gss_try
  | |- still gss_err => unfold gss_err
  end.
