(** Proofs for C82. *)
From Coq Require Import Lia.
From Verif Require Import Bytes Base64 Types World CallbackSpec WorldFacts Simple OAuth ScramParser Scram Gssapi
  Session Frame Local Spec_Flow Spec_Random.
Open Scope m_scope.

Definition still (w w' : world) : Prop := w_rng w' = w_rng w.
Lemma still_frame : frame still.
Proof. split; unfold still; congruence. Qed.
Lemma still_admits ev : admits still ev.
Proof. intros w. reflexivity. Qed.
Lemma still_asks q : asks still q.
Proof. repeat split; intros; apply still_admits. Qed.
Lemma still_writes : writes still.
Proof. intros p w w' [_ [_ [Hr _]]]. exact Hr. Qed.
Lemma still_validate {L} e c : keeps still (@validate L e c).
Proof.
  intros l w. unfold validate, still.
  destruct (run_validate (e_vtag e) (e_vcb e (w_trace w) (e_sd e) c) (w_val w)) as [r slot].
  destruct r; reflexivity.
Qed.
Ltac stills := unfold_steps; repeat (first
  [ keep_step still_frame | apply still_validate | apply still_asks | apply still_writes | apply still_admits
  | intros; apply still_admits ]).

Section Uses.
Context (e : env) (f : nat -> N).
Let e' := set_rng e f.

(** [m] draws a number of random numbers in [S], and [m'] does the same with the same numbers. *)
Definition uses {L A} (S : nat -> Prop) (m m' : M L A) : Prop := forall l w,
  match m l w with
  | (r, l1, w1) => exists k, S k /\ w_rng w1 = w_rng w + k /\
      ((forall j, w_rng w <= j < w_rng w + k -> f j = e_rng e j) -> m' l w = (r, l1, w1))
  end.

Lemma uses_none {L A} (S : nat -> Prop) (m : M L A) : S 0 -> keeps still m -> uses S m m.
Proof.
  intros H0 H l w. specialize (H l w). destruct (m l w) as [[r l1] w1].
  exists 0. split; [exact H0|]. split; [unfold still in H; lia|]. intros _. reflexivity.
Qed.
Lemma uses_bind {L A B} (S T U : nat -> Prop) (m m' : M L A) (g g' : A -> M L B) :
  uses S m m' -> (forall x, uses T (g x) (g' x)) ->
  (forall k, S k -> U k) -> (forall k j, S k -> T j -> U (k + j)) ->
  uses U (bind m g) (bind m' g').
Proof.
  intros Hm Hg H1 H2 l w. unfold bind. specialize (Hm l w).
  destruct (m l w) as [[r l1] w1]. destruct Hm as (k & HS & Hw & He).
  destruct r as [x|x|].
  - specialize (Hg x l1 w1). destruct (g x l1 w1) as [[r l2] w2].
    destruct Hg as (j & HT & Hw2 & He2). exists (k + j). split; [auto|]. split; [lia|].
    intros Hf. rewrite He by (intros i Hi; apply Hf; lia). apply He2. intros i Hi. apply Hf. lia.
  - exists k. split; [auto|]. split; [exact Hw|]. intros Hf. rewrite He by exact Hf. reflexivity.
  - exists k. split; [auto|]. split; [exact Hw|]. intros Hf. rewrite He by exact Hf. reflexivity.
Qed.
Lemma uses_then {L A B} (T : nat -> Prop) (m : M L A) (g g' : A -> M L B) :
  keeps still m -> (forall x, uses T (g x) (g' x)) -> T 0 -> uses T (bind m g) (bind m g').
Proof.
  intros Hm Hg H0. apply (uses_bind (fun k => k = 0) T); auto.
  - apply uses_none; [reflexivity|exact Hm].
  - intros k ->. exact H0.
  - intros k j ->. auto.
Qed.
Lemma draws_eq {L} f0 n (l : L) : forall w, draws f0 n l w = (Ok (map (e_rng f0) (seq (w_rng w) n)), l,
  mk_world (w_out w) (w_script w) (w_trace w) (w_rng w + n) (w_val w)).
Proof.
  induction n as [|n IH]; intros w; cbn [draws seq map].
  - unfold ret. rewrite Nat.add_0_r. destruct w; reflexivity.
  - unfold bind, draw. rewrite IH. cbn [w_out w_script w_trace w_rng w_val]. unfold ret.
    rewrite Nat.add_succ_r. reflexivity.
Qed.
Lemma uses_nonce {L B} (g g' : bytes -> M L B) (T U : nat -> Prop) :
  (forall x, uses T (g x) (g' x)) -> (forall j, T j -> U (nonce_len + j)) ->
  uses U (bind (generate_nonce e) g) (bind (generate_nonce e') g').
Proof.
  intros Hg H l w. unfold bind at 1. unfold generate_nonce at 1. unfold bind at 1. rewrite draws_eq. unfold ret.
  match goal with |- context [g ?x l ?w1] => specialize (Hg x l w1); destruct (g x l w1) as [[r l2] w2] eqn:E end.
  destruct Hg as (j & HT & Hw2 & He2). cbn [w_rng] in *.
  exists (nonce_len + j). split; [auto|]. split; [lia|]. intros Hf.
  unfold bind at 1. unfold generate_nonce at 1. unfold bind at 1. rewrite draws_eq. unfold ret.
  replace (map (e_rng e') (seq (w_rng w) nonce_len)) with (map (e_rng e) (seq (w_rng w) nonce_len)).
  - apply He2. intros i Hi. apply Hf. lia.
  - apply map_ext_in. intros i Hi. apply in_seq in Hi. symmetry. apply Hf. lia.
Qed.
Lemma uses_random {L B} n (g g' : bytes -> M L B) (T U : nat -> Prop) :
  (forall x, uses T (g x) (g' x)) -> (forall j, T j -> U (n + j)) ->
  uses U (bind (random_bytes e n) g) (bind (random_bytes e' n) g').
Proof.
  intros Hg H l w. unfold bind at 1. unfold random_bytes at 1. unfold bind at 1. rewrite draws_eq. unfold ret.
  match goal with |- context [g ?x l ?w1] => specialize (Hg x l w1); destruct (g x l w1) as [[r l2] w2] eqn:E end.
  destruct Hg as (j & HT & Hw2 & He2). cbn [w_rng] in *.
  exists (n + j). split; [auto|]. split; [lia|]. intros Hf.
  unfold bind at 1. unfold random_bytes at 1. unfold bind at 1. rewrite draws_eq. unfold ret.
  replace (map (e_rng e') (seq (w_rng w) n)) with (map (e_rng e) (seq (w_rng w) n)).
  - apply He2. intros i Hi. apply Hf. lia.
  - apply map_ext_in. intros i Hi. apply in_seq in Hi. symmetry. apply Hf. lia.
Qed.
Lemma uses_locally {L L' A} (S : nat -> Prop) (l0 : L') (m m' : M L' A) :
  uses S m m' -> uses S (@locally L L' A l0 m) (locally l0 m').
Proof.
  intros H l w. unfold locally. specialize (H l0 w). destruct (m l0 w) as [[r l1] w1].
  destruct H as (k & HS & Hw & He). destruct r; exists k; (split; [exact HS|split; [exact Hw|]]);
    intros Hf; rewrite He by exact Hf; reflexivity.
Qed.

Lemma first_uses plus : uses (fun k => k = 0 \/ k = 24) (send_client_first e plus) (send_client_first e' plus).
Proof.
  unfold send_client_first.
  change (client_cbflag e' plus) with (client_cbflag e plus).
  apply uses_then; [stills| |auto]. intros _.
  apply uses_then; [stills| |auto]. intros _.
  apply (uses_then _ (maybe_need_with e PAuthzId _ _)); [stills| |auto]. intros _.
  apply uses_then; [stills| |auto]. intros _.
  apply (uses_then _ (need_with e PAuthId _ _)); [stills| |auto]. intros u.
  apply (uses_nonce _ _ (fun k => k = 0)); [|intros j ->; auto]. intros n.
  apply uses_none; [reflexivity|]. stills.
Qed.

Lemma server_first_uses a plus m : uses (fun k => k = 0 \/ k = 24 \/ k = 56)
  (handle_client_first e a plus m) (handle_client_first e' a plus m).
Proof.
  unfold handle_client_first.
  apply uses_then; [stills| |auto]. intros cf.
  apply uses_then; [stills| |auto]. intros _. cbv zeta.
  eapply (uses_then _ (match cf_cbflag cf with CbNotSupported => _ | CbSupportedNotUsed => _ | CbUsed name => _ end));
    [destruct (cf_cbflag cf); stills| |auto]. intros _.
  apply (uses_then _ (maybe_need_with e PScramStoredPassword _ _)); [stills| |auto]. intros p.
  apply (uses_nonce _ _ (fun k => k = 0 \/ k = 32)); [|intros j [-> | ->]; auto]. intros n.
  destruct p as [[[[it salt] st] sk]|].
  - apply uses_none; [auto|]. stills.
  - apply (uses_random _ _ _ (fun k => k = 0)); [|intros j ->; auto]. intros x.
    apply uses_none; [reflexivity|]. stills.
Qed.

(** What a step may draw. *)
Definition may_draw (s : session) (k : nat) : Prop :=
  k = 0 \/ (new_scram_client s /\ k = 24) \/ (new_scram_server s /\ (k = 24 \/ k = 56)).

Lemma mech_step_uses s input script r out s' : step e s input script = (r, out, s') ->
  exists k, may_draw s k /\ s_rng s' = s_rng s + k /\
    ((forall j, s_rng s <= j < s_rng s + k -> f j = e_rng e j) -> step e' s input script = (r, out, s')).
Proof.
  intros H.
  assert (G : forall m m' : M mech state,
    mech_step e input (s_mech s) = m (s_mech s) -> mech_step e' input (s_mech s) = m' (s_mech s) ->
    uses (may_draw s) m m' ->
    exists k, may_draw s k /\ s_rng s' = s_rng s + k /\
    ((forall j, s_rng s <= j < s_rng s + k -> f j = e_rng e j) -> step e' s input script = (r, out, s'))).
  { intros m m' E E' U. unfold step, run in *. rewrite E in H. rewrite E'.
    specialize (U (s_mech s) (mk_world [] script (s_trace s) (s_rng s) (s_val s))).
    destruct (m (s_mech s) _) as [[r1 l1] w1]. injection H as <- <- <-.
    destruct U as (k & HS & Hw & He). exists k. split; [exact HS|]. split; [exact Hw|].
    intros Hf. rewrite He by exact Hf. reflexivity. }
  assert (P : forall L (wrap : L -> mech) l0 (m m' : M L state),
    mech_step e input (s_mech s) = on wrap l0 m (s_mech s) ->
    mech_step e' input (s_mech s) = on wrap l0 m' (s_mech s) ->
    (forall w, match m l0 w with
      | (r, l1, w1) => exists k, may_draw s k /\ w_rng w1 = w_rng w + k /\
         ((forall j, w_rng w <= j < w_rng w + k -> f j = e_rng e j) -> m' l0 w = (r, l1, w1))
      end) ->
    exists k, may_draw s k /\ s_rng s' = s_rng s + k /\
    ((forall j, s_rng s <= j < s_rng s + k -> f j = e_rng e j) -> step e' s input script = (r, out, s'))).
  { intros L wrap l0 m m' E E' U. apply (G _ _ E E'). intros l w. unfold on. specialize (U w).
    destruct (m l0 w) as [[r1 l1] w1]. destruct U as (k & HS & Hw & He). exists k.
    split; [exact HS|]. split; [exact Hw|]. intros Hf. rewrite He by exact Hf. reflexivity. }
  assert (Q : forall L (wrap : L -> mech) l0 (m : M L state),
    mech_step e input (s_mech s) = on wrap l0 m (s_mech s) ->
    mech_step e' input (s_mech s) = on wrap l0 m (s_mech s) -> keeps still m ->
    exists k, may_draw s k /\ s_rng s' = s_rng s + k /\
    ((forall j, s_rng s <= j < s_rng s + k -> f j = e_rng e j) -> step e' s input script = (r, out, s'))).
  { intros L wrap l0 m E E' K. apply (P L wrap l0 m m E E').
    intros w. apply (uses_none (may_draw s) m); [left; reflexivity|exact K]. }
  destruct (s_mech s) as [| |x|x| | | | |x|x|x|x|a x|a x|x|x] eqn:Em.
  - apply (Q _ (fun _ => XPlainC) tt (plain_client_step e input)); [reflexivity|reflexivity|stills].
  - apply (Q _ (fun _ => XPlainS) tt (plain_server_step e input)); [reflexivity|reflexivity|stills].
  - apply (Q _ XLoginC x (login_client_step e input)); [reflexivity|reflexivity|stills].
  - apply (Q _ XLoginS x (login_server_step e input)); [reflexivity|reflexivity|stills].
  - apply (Q _ (fun _ => XExternalC) tt (external_client_step e input)); [reflexivity|reflexivity|stills].
  - apply (Q _ (fun _ => XExternalS) tt (external_server_step e input)); [reflexivity|reflexivity|stills].
  - apply (Q _ (fun _ => XAnonymousC) tt (anonymous_client_step e input)); [reflexivity|reflexivity|stills].
  - apply (Q _ (fun _ => XAnonymousS) tt (anonymous_server_step e input)); [reflexivity|reflexivity|stills].
  - apply (Q _ XXOAuth2C x (xoauth2_client_step e input)); [reflexivity|reflexivity|stills].
  - apply (Q _ XXOAuth2S x (xoauth2_server_step e input)); [reflexivity|reflexivity|stills].
  - apply (Q _ XOAuthBearerC x (oauthbearer_client_step e input)); [reflexivity|reflexivity|stills].
  - apply (Q _ XOAuthBearerS x (oauthbearer_server_step e input)); [reflexivity|reflexivity|stills].
  - (* SCRAM client *)
    apply (P _ (XScramC a) x (scram_client_step e a input) (scram_client_step e' a input));
      [reflexivity|reflexivity|]. intros w.
    destruct x as [[plus|x|x]|].
    + refine (uses_then (may_draw s) (setl None) (fun _ =>
        '(s, _) <- locally ([], None) (send_client_first e plus) ;;
        setl (Some (ScClientFirst s)) ;;; ret Running) (fun _ =>
        '(s, _) <- locally ([], None) (send_client_first e' plus) ;;
        setl (Some (ScClientFirst s)) ;;; ret Running) _ _ _ (Some (ScInitial plus)) w);
        [stills| |left; reflexivity]. intros _.
      apply (uses_bind (may_draw s) (fun k => k = 0) (may_draw s)); auto.
      * apply uses_locally. intros l w1. pose proof (first_uses plus l w1) as U.
        destruct (send_client_first e plus l w1) as [[r1 l1] w2]. destruct U as (k & HS & Hw).
        exists k. split; [|exact Hw]. destruct HS as [-> | ->]; [left; reflexivity|].
        right; left. split; [exists a, plus; exact Em|reflexivity].
      * intros [y z]. apply uses_none; [reflexivity|stills].
      * intros k j H1 ->. rewrite Nat.add_0_r. exact H1.
    + refine (uses_none (may_draw s) (setl None ;;;
        match input with
        | None => fail EInputDataRequired
        | Some m => s' <- handle_server_first e a x m ;; setl (Some (ScServerFirst s')) ;;; ret Running
        end) (or_introl eq_refl) _ (Some (ScClientFirst x)) w). stills.
    + refine (uses_none (may_draw s) (setl None ;;;
        match input with
        | None => fail EInputDataRequired
        | Some m => handle_server_final e x m ;;; ret (Finished false)
        end) (or_introl eq_refl) _ (Some (ScServerFirst x)) w). stills.
    + refine (uses_none (may_draw s) (setl None ;;; panic) (or_introl eq_refl) _ None w). stills.
  - (* SCRAM server *)
    apply (P _ (XScramS a) x (scram_server_step e a input) (scram_server_step e' a input));
      [reflexivity|reflexivity|]. intros w.
    destruct x as [[plus|x|]|].
    + destruct input as [m|].
      2:{ refine (uses_none (may_draw s) (setl None ;;; fail EInputDataRequired) (or_introl eq_refl) _
            (Some (SsClientFirst plus)) w). stills. }
      refine (uses_then (may_draw s) (setl None) (fun _ =>
        '(d, _) <- locally [] (handle_client_first e a plus m) ;;
        setl (Some (SsClientFinal d)) ;;; ret Running) (fun _ =>
        '(d, _) <- locally [] (handle_client_first e' a plus m) ;;
        setl (Some (SsClientFinal d)) ;;; ret Running) _ _ _ (Some (SsClientFirst plus)) w);
        [stills| |left; reflexivity]. intros _.
      apply (uses_bind (may_draw s) (fun k => k = 0) (may_draw s)); auto.
      * apply uses_locally. intros l w1. pose proof (server_first_uses a plus m l w1) as U.
        destruct (handle_client_first e a plus m l w1) as [[r1 l1] w2]. destruct U as (k & HS & Hw).
        exists k. split; [|exact Hw]. destruct HS as [-> | HS]; [left; reflexivity|].
        right; right. split; [exists a, plus; exact Em|exact HS].
      * intros [y z]. apply uses_none; [reflexivity|stills].
      * intros k j H1 ->. rewrite Nat.add_0_r. exact H1.
    + refine (uses_none (may_draw s) (setl None ;;;
        match input with
        | None => fail EInputDataRequired
        | Some m => handle_client_final e a x m ;;; setl (Some SsFinished) ;;; ret (Finished true)
        end) (or_introl eq_refl) _ (Some (SsClientFinal x)) w). stills.
    + refine (uses_none (may_draw s) (setl None ;;; fail EMechanismDone) (or_introl eq_refl) _
        (Some SsFinished) w). stills.
    + refine (uses_none (may_draw s) (setl None ;;; panic) (or_introl eq_refl) _ None w). stills.
  - apply (Q _ XGssapiC x (gss_client_step e input)); [reflexivity|reflexivity|stills].
  - apply (Q _ XGssapiS x (gss_server_step e input)); [reflexivity|reflexivity|stills].
Qed.
End Uses.

Definition used_client (st : option scram_cst) : Prop := forall plus, st <> Some (ScInitial plus).
Definition used_server (st : option scram_sst) : Prop := forall plus, st <> Some (SsClientFirst plus).
Ltac used := repeat (first [lkeep_step | discriminate | intros ?; discriminate | unfold send_final, client_keys, esc]).

Lemma client_step_used e a input l w : used_client (snd (fst (scram_client_step e a input l w))).
Proof.
  unfold scram_client_step, bind at 1, getl at 1, bind at 1, setl at 1.
  match goal with |- used_client (snd (fst (?m None w))) =>
    assert (K : lkeeps used_client m); [|apply (K None w); discriminate] end.
  destruct l as [[p|x|x]|]; unfold handle_server_first, handle_server_final; used.
Qed.
Lemma server_step_used e a input l w : used_server (snd (fst (scram_server_step e a input l w))).
Proof.
  unfold scram_server_step, bind at 1, getl at 1, bind at 1, setl at 1.
  match goal with |- used_server (snd (fst (?m None w))) =>
    assert (K : lkeeps used_server m); [|apply (K None w); discriminate] end.
  destruct l as [[p|x|]|]; unfold handle_client_final; used.
Qed.

Lemma step_not_new e s input script :
  let s' := snd (step e s input script) in ~ new_scram_client s' /\ ~ new_scram_server s'.
Proof.
  cbv zeta. unfold step, run.
  set (w := mk_world _ _ _ _ _).
  assert (G : forall p : res serr state * mech * world,
    (forall a plus, snd (fst p) <> XScramC a (Some (ScInitial plus))) ->
    (forall a plus, snd (fst p) <> XScramS a (Some (SsClientFirst plus))) ->
    let s' := snd (let '(r, m, w1) := p in (r, w_out w1, mk_session m (w_trace w1) (w_rng w1) (w_val w1))) in
    ~ new_scram_client s' /\ ~ new_scram_server s').
  { intros [[r m] w1] H1 H2. cbn in *. split; intros (a & plus & E); [exact (H1 a plus E)|exact (H2 a plus E)]. }
  assert (O : forall L (wrap : L -> mech) l0 (m : M L state) x w, exists l1, snd (fst (on wrap l0 m x w)) = wrap l1).
  { intros L wrap l0 m x w0. unfold on. destruct (m l0 w0) as [[r l1] w1]. exists l1. reflexivity. }
  assert (C : forall a x, (forall b plus, snd (fst (mech_step e input (XScramC a x) w)) <> XScramC b (Some (ScInitial plus)))
    /\ (forall b plus, snd (fst (mech_step e input (XScramC a x) w)) <> XScramS b (Some (SsClientFirst plus)))).
  { intros a x.
    change (mech_step e input (XScramC a x) w) with (on (XScramC a) x (scram_client_step e a input) (XScramC a x) w).
    unfold on. pose proof (client_step_used e a input x w) as K.
    destruct (scram_client_step e a input x w) as [[r l1] w1]. cbn in *. split; intros b plus; [|intros E; discriminate E].
    intros E. injection E as -> E. exact (K plus E). }
  assert (S : forall a x, (forall b plus, snd (fst (mech_step e input (XScramS a x) w)) <> XScramC b (Some (ScInitial plus)))
    /\ (forall b plus, snd (fst (mech_step e input (XScramS a x) w)) <> XScramS b (Some (SsClientFirst plus)))).
  { intros a x.
    change (mech_step e input (XScramS a x) w) with (on (XScramS a) x (scram_server_step e a input) (XScramS a x) w).
    unfold on. pose proof (server_step_used e a input x w) as K.
    destruct (scram_server_step e a input x w) as [[r l1] w1]. cbn in *. split; intros b plus; [intros E; discriminate E|].
    intros E. injection E as -> E. exact (K plus E). }
  destruct (s_mech s) as [| |x|x| | | | |x|x|x|x|a x|a x|x|x];
    try (apply G; [apply C|apply C]); try (apply G; [apply S|apply S]);
    (apply G; intros b plus; unfold mech_step, bind at 1, getl;
      match goal with |- context [on ?f ?l ?m ?x w] => destruct (O _ f l m x w) as [? ->]; discriminate end).
Qed.

Lemma draws_step e s input script r out s' : step e s input script = (r, out, s') ->
  exists k, s_rng s' = s_rng s + k /\
    (k = 0 \/ (new_scram_client s /\ k = 24) \/ (new_scram_server s /\ (k = 24 \/ k = 56))).
Proof.
  intros H. destruct (mech_step_uses e (e_rng e) _ _ _ _ _ _ H) as (k & HS & Hw & _). exists k. split; assumption.
Qed.

Lemma old_draws e l : forall s, ~ new_scram_client s -> ~ new_scram_server s -> s_rng (after e s l) = s_rng s.
Proof.
  induction l as [|[input script] l IH]; intros s H1 H2; [reflexivity|]. cbn [after].
  destruct (step_not_new e s input script) as [N1 N2]. rewrite IH by assumption.
  destruct (step e s input script) as [[r out] s'] eqn:E.
  destruct (draws_step _ _ _ _ _ _ _ E) as (k & Hk & [-> | [[K _] | [K _]]]); cbn; [lia|tauto..].
Qed.

Lemma total_draws e s l : exists k, s_rng (after e s l) = s_rng s + k /\
  (k = 0 \/ (new_scram_client s /\ k = 24) \/ (new_scram_server s /\ (k = 24 \/ k = 56))).
Proof.
  destruct l as [|[input script] l]; [exists 0; cbn; split; [lia|auto]|]. cbn [after].
  destruct (step_not_new e s input script) as [N1 N2]. rewrite old_draws by assumption.
  destruct (step e s input script) as [[r out] s'] eqn:E. exact (draws_step _ _ _ _ _ _ _ E).
Qed.

Lemma only_these e f l : forall s,
  (forall j, s_rng s <= j < s_rng (after e s l) -> f j = e_rng e j) ->
  dialogue (set_rng e f) s l = dialogue e s l /\ after (set_rng e f) s l = after e s l.
Proof.
  induction l as [|[input script] l IH]; intros s Hf; [split; reflexivity|].
  cbn [dialogue after] in *. destruct (step e s input script) as [[r out] s'] eqn:E.
  destruct (mech_step_uses e f _ _ _ _ _ _ E) as (k & _ & Hk & He). cbn [snd] in *.
  destruct (total_draws e s' l) as (k2 & Hk2 & _).
  rewrite He by (intros j Hj; apply Hf; lia). cbn [snd].
  destruct (IH s') as [-> ->]; [intros j Hj; apply Hf; lia|]. split; reflexivity.
Qed.

Lemma layer_draws e f s input script :
  (let '(r, out, s') := session_encode e s input script in
     s_rng s' = s_rng s /\ session_encode (set_rng e f) s input script = (r, out, s')) /\
  (let '(r, out, s') := session_decode e s input script in
     s_rng s' = s_rng s /\ session_decode (set_rng e f) s input script = (r, out, s')).
Proof.
  assert (G : forall m m' : M mech nat, m = m' -> keeps still m ->
    let '(r, out, s') := run m s script in s_rng s' = s_rng s /\ run m' s script = (r, out, s')).
  { intros m m' <- K. unfold run. specialize (K (s_mech s) (mk_world [] script (s_trace s) (s_rng s) (s_val s))).
    destruct (m (s_mech s) _) as [[r l1] w1]. split; [exact K|reflexivity]. }
  split; (apply G; [reflexivity|]).
  - unfold mech_encode, gss_client_encode, gss_server_encode. stills.
  - unfold mech_decode, gss_client_decode, gss_server_decode. stills.
Qed.
