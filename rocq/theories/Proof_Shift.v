(** A session uses random numbers only by their order: moved to another place of another source that
    gives the same numbers there, it does the same. *)
From Coq Require Import Lia.
From Verif Require Import Bytes Types World CallbackSpec Simple OAuth ScramParser Scram Gssapi Session Frame
  Spec_Random Process.
Open Scope m_scope.

(** The same world at another place of the source. *)
Definition at_place (w : world) (b : nat) : world :=
  mk_world (w_out w) (w_script w) (w_trace w) b (w_val w).

Section Shift.
Context (e : env) (f g : nat -> N).
Let ef := set_rng e f.
Let eg := set_rng e g.

(** [F] draws some numbers; [G] does the same at any other place with the same numbers. *)
Definition moves {X} (F G : world -> X * world) : Prop := forall w b,
  match F w with
  | (x, w1) => exists k, w_rng w1 = w_rng w + k /\
      ((forall j, j < k -> g (b + j) = f (w_rng w + j)) -> G (at_place w b) = (x, at_place w1 (b + k)))
  end.

Lemma moves_still {X} (F G : world -> X * world) :
  (forall w b, match F w with (x, w1) => w_rng w1 = w_rng w /\ G (at_place w b) = (x, at_place w1 b) end) ->
  moves F G.
Proof.
  intros H w b. specialize (H w b). destruct (F w) as [x w1]. destruct H as [H1 H2].
  exists 0. split; [lia|]. intros _. rewrite Nat.add_0_r. exact H2.
Qed.
Lemma moves_ext {X} (F F' G G' : world -> X * world) :
  (forall w, F w = F' w) -> (forall w, G w = G' w) -> moves F' G' -> moves F G.
Proof. intros H1 H2 H w b. rewrite H1, H2. apply H. Qed.
Lemma moves_seq {X Y} (F G : world -> X * world) (F2 G2 : X -> world -> Y * world) :
  moves F G -> (forall x, moves (F2 x) (G2 x)) ->
  moves (fun w => match F w with (x, w1) => F2 x w1 end) (fun w => match G w with (x, w1) => G2 x w1 end).
Proof.
  intros H H2 w b. specialize (H w b). destruct (F w) as [x w1]. destruct H as (k & Hk & He).
  specialize (H2 x w1 (b + k)). destruct (F2 x w1) as [y w2]. destruct H2 as (k2 & Hk2 & He2).
  exists (k + k2). split; [lia|]. intros Hf. rewrite He by (intros j Hj; apply Hf; lia).
  rewrite He2; [rewrite Nat.add_assoc; reflexivity|].
  intros j Hj. rewrite Hk, <- !Nat.add_assoc. apply Hf. lia.
Qed.

Definition movesm {L A} (m m' : M L A) : Prop := forall l, moves (m l) (m' l).

Lemma mv_same {X} (x : X) : moves (fun w => (x, w)) (fun w => (x, w)).
Proof. apply moves_still. intros w b. split; reflexivity. Qed.
Lemma mv_ret {L A} (a : A) : movesm (@ret L A a) (ret a).
Proof. intros l. apply mv_same. Qed.
Lemma mv_fail {L A} x : movesm (@fail L A x) (fail x).
Proof. intros l. apply mv_same. Qed.
Lemma mv_panic {L A} : movesm (@panic L A) panic.
Proof. intros l. apply mv_same. Qed.
Lemma mv_getl {L} : movesm (@getl L) getl.
Proof. intros l. apply mv_same. Qed.
Lemma mv_setl {L} (x : L) : movesm (setl x) (setl x).
Proof. intros l. apply mv_same. Qed.
Lemma mv_of_res {L A} (r : res serr A) : movesm (@of_res L A r) (of_res r).
Proof. intros l. apply mv_same. Qed.
Lemma mv_bind {L A B} (m m' : M L A) (h h' : A -> M L B) :
  movesm m m' -> (forall a, movesm (h a) (h' a)) -> movesm (bind m h) (bind m' h').
Proof.
  intros Hm Hh l.
  apply moves_ext with
    (F' := fun w => match m l w with (x, w1) => (fun x => match x with
      | (Ok a, l') => h a l' | (Err e0, l') => fun w => (Err e0, l', w) | (Panic, l') => fun w => (Panic, l', w) end) x w1 end)
    (G' := fun w => match m' l w with (x, w1) => (fun x => match x with
      | (Ok a, l') => h' a l' | (Err e0, l') => fun w => (Err e0, l', w) | (Panic, l') => fun w => (Panic, l', w) end) x w1 end).
  - intros w. unfold bind. destruct (m l w) as [[[a|x|] l1] w1]; reflexivity.
  - intros w. unfold bind. destruct (m' l w) as [[[a|x|] l1] w1]; reflexivity.
  - apply moves_seq; [apply Hm|]. intros [[a|x|] l1]; [apply Hh|apply mv_same..].
Qed.
Lemma mv_locally {L L' A} (l0 : L') (m m' : M L' A) : movesm m m' -> movesm (@locally L L' A l0 m) (locally l0 m').
Proof.
  intros Hm l w b. unfold locally. specialize (Hm l0 w b). destruct (m l0 w) as [[r l1] w1].
  destruct Hm as (k & Hk & He). destruct r; exists k; (split; [exact Hk|]); intros Hf;
    rewrite He by exact Hf; reflexivity.
Qed.
Lemma mv_on {L A} (wrap : L -> mech) l0 (m m' : M L A) : movesm m m' -> movesm (on wrap l0 m) (on wrap l0 m').
Proof.
  intros Hm l w b. unfold on. specialize (Hm l0 w b). destruct (m l0 w) as [[r l1] w1].
  destruct Hm as (k & Hk & He). exists k. split; [exact Hk|]. intros Hf. rewrite He by exact Hf. reflexivity.
Qed.
Lemma mv_ignore {L A} (m m' : M L A) : movesm m m' -> movesm (ignore m) (ignore m').
Proof.
  intros Hm l w b. unfold ignore. specialize (Hm l w b). destruct (m l w) as [[r l1] w1].
  destruct Hm as (k & Hk & He). destruct r; exists k; (split; [exact Hk|]); intros Hf;
    rewrite He by exact Hf; reflexivity.
Qed.
Lemma mv_log {L} ev : movesm (@log L ev) (log ev).
Proof. intros l. apply moves_still. intros w b. split; reflexivity. Qed.
Lemma mv_draw {L} : movesm (@draw L ef) (draw eg).
Proof.
  intros l w b. exists 1. split; [simpl; lia|]. intros Hf. unfold draw, at_place. simpl.
  specialize (Hf 0 (le_n 1)). rewrite !Nat.add_0_r in Hf. rewrite Hf.
  replace (b + 1) with (S b) by lia. reflexivity.
Qed.
Lemma mv_draws {L} n : movesm (@draws L ef n) (draws eg n).
Proof.
  induction n as [|n IH]; cbn [draws]; [apply mv_ret|]. apply mv_bind; [apply mv_draw|]. intros x.
  apply mv_bind; [exact IH|]. intros. apply mv_ret.
Qed.
Lemma mv_write1 data : moves (write1 data) (write1 data).
Proof.
  apply moves_still. intros w b. unfold write1, at_place. cbn [w_script w_out w_trace w_val].
  destruct (w_script w) as [|[n|n|] s]; split; reflexivity.
Qed.
Lemma mv_write_all_fuel n : forall data, moves (write_all_fuel n data) (write_all_fuel n data).
Proof.
  induction n as [|n IH]; intros [|x data]; try (apply mv_same).
  apply moves_ext with
    (F' := fun w => match write1 (x :: data) w with (y, w1) => (fun y => match y with
       | inl e0 => fun w => (Err (EIo e0), w) | inr None => write_all_fuel n (x :: data)
       | inr (Some O) => fun w => (Err (EIo IoWriteZero), w)
       | inr (Some k) => write_all_fuel n (skipn k (x :: data)) end) y w1 end)
    (G' := fun w => match write1 (x :: data) w with (y, w1) => (fun y => match y with
       | inl e0 => fun w => (Err (EIo e0), w) | inr None => write_all_fuel n (x :: data)
       | inr (Some O) => fun w => (Err (EIo IoWriteZero), w)
       | inr (Some k) => write_all_fuel n (skipn k (x :: data)) end) y w1 end).
  1,2: intros w; cbn [write_all_fuel]; destruct (write1 (x :: data) w) as [[y|[[|k]|]] w1]; reflexivity.
  apply moves_seq; [apply mv_write1|]. intros [y|[[|k]|]]; try apply mv_same; apply IH.
Qed.
Lemma mv_write_all {L} data : movesm (@write_all L data) (write_all data).
Proof.
  intros l w b. unfold write_all. cbn [at_place w_script].
  pose proof (mv_write_all_fuel (S (length (w_script w))) data w b) as K.
  destruct (write_all_fuel (S (length (w_script w))) data w) as [r w1]. destruct K as (k & Hk & He).
  exists k. split; [exact Hk|]. intros Hf. unfold at_place in *. cbn [w_script]. rewrite He by exact Hf. reflexivity.
Qed.
Lemma mv_vec_inner bufs : moves (vec_inner bufs) (vec_inner bufs).
Proof.
  apply moves_still. intros w b. unfold vec_inner. destruct bufs as [|x bufs]; [split; reflexivity|].
  unfold write1, at_place. cbn [w_script w_out w_trace w_val].
  destruct (w_script w) as [|[n|n|] s]; try (split; reflexivity).
  1,2: match goal with |- context [count_removed ?x ?y ?z] => destruct (count_removed x y z) as [rm acc] end;
       destruct (skipn rm (x :: bufs)); split; reflexivity.
Qed.
Lemma mv_vec_loop n : forall bufs k, moves (vec_loop n bufs k) (vec_loop n bufs k).
Proof.
  induction n as [|n IH]; intros bufs k; [apply mv_same|].
  apply moves_ext with
    (F' := fun w => match vec_inner bufs w with (y, w1) => (fun y => match y with
       | inl e0 => fun w => (Err (EIo e0), w) | inr (O, _) => fun w => (Ok k, w)
       | inr (len, []) => fun w => (Ok (k + len), w)
       | inr (len, bufs') => vec_loop n bufs' (k + len) end) y w1 end)
    (G' := fun w => match vec_inner bufs w with (y, w1) => (fun y => match y with
       | inl e0 => fun w => (Err (EIo e0), w) | inr (O, _) => fun w => (Ok k, w)
       | inr (len, []) => fun w => (Ok (k + len), w)
       | inr (len, bufs') => vec_loop n bufs' (k + len) end) y w1 end).
  1,2: intros w; cbn [vec_loop]; destruct (vec_inner bufs w) as [[y|[[|len] [|x r]]] w1]; reflexivity.
  apply moves_seq; [apply mv_vec_inner|]. intros [y|[[|len] [|x r]]]; try apply mv_same; apply IH.
Qed.
Lemma mv_write_all_vectored {L} bufs : movesm (@write_all_vectored L bufs) (write_all_vectored bufs).
Proof.
  intros l w b. unfold write_all_vectored. destruct bufs as [|x bufs].
  - exists 0. split; [lia|]. intros _. rewrite Nat.add_0_r. reflexivity.
  - pose proof (mv_vec_loop (S (S (length (w_script w)))) (x :: bufs) 0 w b) as K.
    destruct (vec_loop (S (S (length (w_script w)))) (x :: bufs) 0 w) as [r w1]. destruct K as (k & Hk & He).
    exists k. split; [exact Hk|]. intros Hf. unfold at_place in *. cbn [w_script]. rewrite He by exact Hf. reflexivity.
Qed.
Lemma mv_write_json {L} x : movesm (@write_json L ef x) (write_json eg x).
Proof.
  intros l w b. unfold write_json. change (e_json_to eg x) with (e_json_to ef x).
  pose proof (@mv_write_all L (e_json_to ef x) l w b) as K.
  destruct (write_all (e_json_to ef x) l w) as [[r l1] w1]. destruct K as (k & Hk & He).
  destruct r; exists k; (split; [exact Hk|]); intros Hf; rewrite He by exact Hf; reflexivity.
Qed.
Lemma mv_ob_write_kv {L} kv : movesm (@ob_write_kv L kv) (ob_write_kv kv).
Proof.
  induction kv as [|[k v] r IH]; cbn [ob_write_kv]; [apply mv_ret|].
  apply mv_bind; [apply mv_write_all_vectored|]. intros. exact IH.
Qed.
Lemma mv_validate {L} c : movesm (@validate L ef c) (validate eg c).
Proof.
  intros l. apply moves_still. intros w b. unfold validate, at_place. cbn [w_out w_script w_trace w_rng w_val].
  change (e_vtag eg) with (e_vtag ef). change (e_vcb eg) with (e_vcb ef). change (e_sd eg) with (e_sd ef).
  destruct (run_validate _ _ _) as [[x|] slot]; split; reflexivity.
Qed.
Lemma mv_action {L} q c v : movesm (@action L ef q c v) (action eg q c v).
Proof.
  intros l. apply moves_still. intros w b. unfold action, at_place. cbn [w_out w_script w_trace w_rng w_val].
  change (e_cb eg) with (e_cb ef). change (e_sd eg) with (e_sd ef).
  destruct (run_action _ _ _ _) as [[x slot] tr].
  destruct (mask_early x); [|destruct slot]; split; reflexivity.
Qed.
Lemma mv_cr_satisfy {L G} q (h h' : pval q -> M L G) st v l : (forall v, movesm (h v) (h' v)) ->
  moves (cr_satisfy q h st v l) (cr_satisfy q h' st v l).
Proof.
  intros Hh. destruct st; [|apply mv_same..]. intros w b. unfold cr_satisfy.
  pose proof (mv_bind _ _ _ _ (mv_log (EvAnswer q v)) (fun _ => Hh v) l w b) as K.
  destruct (bind (log (EvAnswer q v)) (fun _ => h v) l w) as [[r l1] w1]. destruct K as (k & Hk & He).
  destruct r; exists k; (split; [exact Hk|]); intros Hf; rewrite He by exact Hf; reflexivity.
Qed.
Lemma mv_run_satisfy {L G} q (h h' : pval q -> M L G) p : (forall v, movesm (h v) (h' v)) ->
  forall st l, moves (run_satisfy q h p st l) (run_satisfy q h' p st l).
Proof.
  intros Hh.
  assert (K : forall (k : option serr -> cbprog) v st l,
    (forall r st l, moves (run_satisfy q h (k r) st l) (run_satisfy q h' (k r) st l)) ->
    moves (fun w => match cr_satisfy q h st v l w with
             | (Ok _, st', l', w') => run_satisfy q h (k (Some ECbEarlyReturn)) st' l' w'
             | (Err e, st', l', w') => run_satisfy q h (k (Some e)) st' l' w'
             | (Panic, st', l', w') => (Panic, st', l', w') end)
          (fun w => match cr_satisfy q h' st v l w with
             | (Ok _, st', l', w') => run_satisfy q h' (k (Some ECbEarlyReturn)) st' l' w'
             | (Err e, st', l', w') => run_satisfy q h' (k (Some e)) st' l' w'
             | (Panic, st', l', w') => (Panic, st', l', w') end)).
  { intros k v st l IH.
    apply moves_ext with
      (F' := fun w => match cr_satisfy q h st v l w with (y, w1) => (fun y => match y with
         | (Ok _, st', l') => run_satisfy q h (k (Some ECbEarlyReturn)) st' l'
         | (Err e, st', l') => run_satisfy q h (k (Some e)) st' l'
         | (Panic, st', l') => fun w' => (Panic, st', l', w') end) y w1 end)
      (G' := fun w => match cr_satisfy q h' st v l w with (y, w1) => (fun y => match y with
         | (Ok _, st', l') => run_satisfy q h' (k (Some ECbEarlyReturn)) st' l'
         | (Err e, st', l') => run_satisfy q h' (k (Some e)) st' l'
         | (Panic, st', l') => fun w' => (Panic, st', l', w') end) y w1 end).
    - intros w. destruct (cr_satisfy q h st v l w) as [[[[u|x|] st1] l1] w1]; reflexivity.
    - intros w. destruct (cr_satisfy q h' st v l w) as [[[[u|x|] st1] l1] w1]; reflexivity.
    - apply moves_seq; [apply mv_cr_satisfy; exact Hh|].
      intros [[[u|x|] st1] l1]; [apply IH|apply IH|apply mv_same]. }
  induction p as [x|p v k IH|p c k IH|p k IH|p k IH]; intros st l; cbn [run_satisfy].
  - apply mv_same.
  - destruct (castp v) as [v'|]; [|apply IH]. apply K. exact IH.
  - destruct (prop_eq_dec p q); [|apply IH].
    assert (E : forall F G : world -> (res serr cres * closure_cr G * L) * world, moves F G ->
      moves (fun w => F (add_event (EvClosure p) w)) (fun w => G (add_event (EvClosure p) w))).
    { intros F G0 H w b. exact (H (add_event (EvClosure p) w) b). }
    destruct c as [x|v]; [apply E, IH|]. destruct (castp v) as [v'|]; [|apply E, IH].
    exact (E _ _ (K k v' st l IH)).
  - apply IH.
  - apply IH.
Qed.
Lemma mv_maybe_need_with {L G} q c (h h' : pval q -> M L G) : (forall v, movesm (h v) (h' v)) ->
  movesm (maybe_need_with ef q c h) (maybe_need_with eg q c h').
Proof.
  intros Hh l w b. unfold maybe_need_with. cbn [at_place w_trace].
  change (e_cb eg) with (e_cb ef). change (e_sd eg) with (e_sd ef).
  pose proof (mv_run_satisfy q h h' (e_cb ef (w_trace w) (e_sd ef) c (RSatisfy q)) Hh CrOpen l
    (add_event (EvRequest q c) w) b) as K.
  destruct (run_satisfy q h _ CrOpen l _) as [[[r st] l1] w1]. destruct K as (k & Hk & He).
  change (w_rng (add_event (EvRequest q c) w)) with (w_rng w) in *.
  change (at_place (add_event (EvRequest q c) w) b) with (add_event (EvRequest q c) (at_place w b)) in He.
  destruct r as [r|x|].
  - destruct (mask_early r) as [[]|] eqn:Er; exists k; (split; [exact Hk|]); intros Hf;
      rewrite He by exact Hf; rewrite Er; reflexivity.
  - exists k; (split; [exact Hk|]); intros Hf; rewrite He by exact Hf; reflexivity.
  - exists k; (split; [exact Hk|]); intros Hf; rewrite He by exact Hf; reflexivity.
Qed.
Lemma mv_need_with {L G} q c (h h' : pval q -> M L G) : (forall v, movesm (h v) (h' v)) ->
  movesm (need_with ef q c h) (need_with eg q c h').
Proof.
  intros Hh. unfold need_with. apply mv_bind; [apply mv_maybe_need_with; exact Hh|].
  intros [x|]; [apply mv_ret|apply mv_fail].
Qed.
Lemma mv_maybe_need_cb_data {L G} name c (h h' : bytes -> M L G) : (forall v, movesm (h v) (h' v)) ->
  movesm (maybe_need_cb_data ef name c h) (maybe_need_cb_data eg name c h').
Proof.
  intros Hh. unfold maybe_need_cb_data. apply mv_bind; [apply mv_log|]. intros _.
  change (e_chan eg name) with (e_chan ef name). destruct (e_chan ef name).
  - apply mv_bind; [apply Hh|]. intros; apply mv_ret.
  - apply mv_maybe_need_with. exact Hh.
Qed.
Lemma mv_need_cb_data {L G} name c (h h' : bytes -> M L G) : (forall v, movesm (h v) (h' v)) ->
  movesm (need_cb_data ef name c h) (need_cb_data eg name c h').
Proof.
  intros Hh. unfold need_cb_data. apply mv_bind; [apply mv_maybe_need_cb_data; exact Hh|].
  intros [x|]; [apply mv_ret|apply mv_fail].
Qed.
End Shift.

Ltac mv_step :=
  lazymatch goal with
  | |- movesm _ _ (ret _) _ => apply mv_ret
  | |- movesm _ _ (fail _) _ => apply mv_fail
  | |- movesm _ _ panic _ => apply mv_panic
  | |- movesm _ _ getl _ => apply mv_getl
  | |- movesm _ _ (setl _) _ => apply mv_setl
  | |- movesm _ _ (of_res _) _ => apply mv_of_res
  | |- movesm _ _ (bind _ _) _ => apply mv_bind; [|intros ?]
  | |- movesm _ _ (locally _ _) _ => apply mv_locally
  | |- movesm _ _ (ignore _) _ => apply mv_ignore
  | |- movesm _ _ (on _ _ _) _ => apply mv_on
  | |- movesm _ _ (need_with _ _ _ _) _ => apply mv_need_with; intros ?
  | |- movesm _ _ (maybe_need_with _ _ _ _) _ => apply mv_maybe_need_with; intros ?
  | |- movesm _ _ (need_cb_data _ _ _ _) _ => apply mv_need_cb_data; intros ?
  | |- movesm _ _ (maybe_need_cb_data _ _ _ _) _ => apply mv_maybe_need_cb_data; intros ?
  | |- movesm _ _ (action _ _ _ _) _ => apply mv_action
  | |- movesm _ _ (validate _ _) _ => apply mv_validate
  | |- movesm _ _ (write_all_vectored _) _ => apply mv_write_all_vectored
  | |- movesm _ _ (write_all _) _ => apply mv_write_all
  | |- movesm _ _ (write_json _ _) _ => apply mv_write_json
  | |- movesm _ _ (ob_write_kv _) _ => apply mv_ob_write_kv
  | |- movesm _ _ (draws _ _) _ => apply mv_draws
  | |- movesm _ _ (log _) _ => apply mv_log
  | |- movesm _ _ (match ?x with _ => _ end) _ => destruct x
  | |- movesm _ _ (scram_parse _) _ => unfold scram_parse
  | |- movesm _ _ (scram_proto _) _ => unfold scram_proto
  | |- movesm _ _ (exact _ _) _ => unfold exact
  | |- movesm _ _ (gss_try _) _ => unfold gss_try
  | |- movesm _ _ gss_err _ => unfold gss_err
  end.

Ltac same_rest := repeat match goal with
  | |- context [compute_signatures (set_rng ?e ?h)] =>
      change (compute_signatures (set_rng e h)) with (compute_signatures e)
  | |- context [derive_keys (set_rng ?e ?h)] => change (derive_keys (set_rng e h)) with (derive_keys e)
  | |- context [e_hash (set_rng ?e ?h)] => change (e_hash (set_rng e h)) with (e_hash e)
  | |- context [e_hmac (set_rng ?e ?h)] => change (e_hmac (set_rng e h)) with (e_hmac e)
  | |- context [e_pbkdf2 (set_rng ?e ?h)] => change (e_pbkdf2 (set_rng e h)) with (e_pbkdf2 e)
  | |- context [e_saslprep (set_rng ?e ?h)] => change (e_saslprep (set_rng e h)) with (e_saslprep e)
  | |- context [e_json_from (set_rng ?e ?h)] => change (e_json_from (set_rng e h)) with (e_json_from e)
  | |- context [e_gss_name (set_rng ?e ?h)] => change (e_gss_name (set_rng e h)) with (e_gss_name e)
  | |- context [e_gss_cred (set_rng ?e ?h)] => change (e_gss_cred (set_rng e h)) with (e_gss_cred e)
  | |- context [e_gss_step (set_rng ?e ?h)] => change (e_gss_step (set_rng e h)) with (e_gss_step e)
  | |- context [e_gss_complete (set_rng ?e ?h)] => change (e_gss_complete (set_rng e h)) with (e_gss_complete e)
  | |- context [e_gss_flags (set_rng ?e ?h)] => change (e_gss_flags (set_rng e h)) with (e_gss_flags e)
  | |- context [e_gss_wrap (set_rng ?e ?h)] => change (e_gss_wrap (set_rng e h)) with (e_gss_wrap e)
  | |- context [e_gss_unwrap (set_rng ?e ?h)] => change (e_gss_unwrap (set_rng e h)) with (e_gss_unwrap e)
  end.

Lemma mv_step_all e f g input : movesm f g (mech_step (set_rng e f) input) (mech_step (set_rng e g) input).
Proof.
  unfold mech_step. apply mv_bind; [apply mv_getl|]. intros m.
  destruct m; unfold_steps; same_rest; repeat mv_step.
Qed.
Lemma mv_encode e f g input : movesm f g (mech_encode (set_rng e f) input) (mech_encode (set_rng e g) input).
Proof. unfold mech_encode, gss_client_encode, gss_server_encode. unfold_steps. same_rest. repeat mv_step. Qed.
Lemma mv_decode e f g input : movesm f g (mech_decode (set_rng e f) input) (mech_decode (set_rng e g) input).
Proof. unfold mech_decode, gss_client_decode, gss_server_decode. unfold_steps. same_rest. repeat mv_step. Qed.




Lemma run_moves {A} f g (m m' : M mech A) s script b r out s' :
  movesm f g m m' -> run m s script = (r, out, s') ->
  exists k, s_rng s' = s_rng s + k /\
    ((forall j, j < k -> g (b + j) = f (s_rng s + j)) ->
     run m' (placed s b) script = (r, out, placed s' (b + k))).
Proof.
  intros H E. unfold run in *. cbn [placed s_mech s_trace s_rng s_val].
  specialize (H (s_mech s) (mk_world [] script (s_trace s) (s_rng s) (s_val s)) b).
  destruct (m (s_mech s) _) as [[r1 l1] w1]. injection E as <- <- <-. destruct H as (k & Hk & He).
  exists k. split; [exact Hk|]. intros Hf. unfold at_place in He. cbn [w_out w_script w_trace w_val w_rng] in *.
  rewrite He by exact Hf. reflexivity.
Qed.
