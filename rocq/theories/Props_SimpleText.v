(** Property theorems about the messages of PLAIN, EXTERNAL and ANONYMOUS. *)
From Coq Require Import NArith Lia.
From Verif Require Import Bytes BytesFacts Utf8 Types World CallbackSpec Simple Session Spec_Wire Spec_Simple
  Spec_SimpleText ExampleEnv Proof_Utf8 Proof_SimpleText Props_Simple.

(** C88: PLAIN servers read every message of the grammar, and pass it on if it can be prepared. *)
Theorem C88_plain_reads : forall e s m z a p script r out s',
  s_mech s = XPlainS -> is_plain m z a p -> step e s (Some m) script = (r, out, s') ->
  out = [] /\
  ((exists a' p' c, prepared e a a' /\ prepared e p p' /\ new_events s s' [EvValidate c] /\
      offers_plain c z a' p' /\ validated r) \/
   ((~ exists a' p', prepared e a a' /\ prepared e p p') /\ new_events s s' [] /\
      exists x, r = Err (EMech (MPlain x)))).
Proof. exact plain_reads. Qed.
Print Assumptions C88_plain_reads.

(** C88: EXTERNAL servers read every message of the grammar. *)
Theorem C88_external_reads : forall e s m script r out s',
  s_mech s = XExternalS -> is_external m -> step e s (Some m) script = (r, out, s') ->
  out = [] /\ exists c, new_events s s' [EvValidate c] /\ offers_only c PAuthzId m /\ validated r.
Proof. exact external_reads. Qed.
Print Assumptions C88_external_reads.

(** C88: ANONYMOUS servers read every message of the grammar. *)
Theorem C88_anonymous_reads : forall e s m script r out s',
  s_mech s = XAnonymousS -> is_trace m -> step e s (Some m) script = (r, out, s') ->
  out = [] /\ exists c, new_events s s' [EvValidate c] /\ offers_only c PAnonymousToken m /\ validated r.
Proof. exact anonymous_reads. Qed.
Print Assumptions C88_anonymous_reads.

(** C88 as stated is false: PLAIN servers accept passwords that are no text, *)
Theorem C88_plain_only_refuted :
  ~ (forall e s m script st out s',
       s_mech s = XPlainS -> step e s (Some m) script = (Ok st, out, s') -> exists z a p, is_plain m z a p).
Proof.
  intros H. destruct (step ex_e (ex_start XPlainS) (Some (nul :: lit "u" ++ nul :: [chr 255])) []) as [[r out] s'] eqn:E.
  assert (R : r = Ok (Finished false)) by (vm_compute in E; congruence). subst r.
  destruct (H ex_e (ex_start XPlainS) _ _ _ _ _ eq_refl E) as (z & a & p & M & Z & [_ Na] & _ & [U _] & _).
  change (nul :: lit "u" ++ nul :: [chr 255]) with (plain_message [] (lit "u") [chr 255]) in M.
  apply Proof_Simple.plain_message_inj in M; [|intros []|intros [K|[]]; discriminate K|apply Z|exact Na].
  destruct M as (_ & _ & <-). apply utf8_exact in U. discriminate U.
Qed.
Print Assumptions C88_plain_only_refuted.
(** EXTERNAL servers accept identities with NUL, *)
Theorem C88_external_only_refuted :
  ~ (forall e s m script st out s',
       s_mech s = XExternalS -> step e s (Some m) script = (Ok st, out, s') -> is_external m).
Proof.
  intros H. destruct (step ex_e (ex_start XExternalS) (Some [nul]) []) as [[r out] s'] eqn:E.
  assert (R : r = Ok (Finished false)) by (vm_compute in E; congruence). subst r.
  destruct (H ex_e (ex_start XExternalS) _ _ _ _ _ eq_refl E) as [_ N]. apply N. left. reflexivity.
Qed.
Print Assumptions C88_external_only_refuted.
(** and ANONYMOUS servers accept trace information of any length. *)
Theorem C88_anonymous_only_refuted :
  ~ (forall e s m script st out s',
       s_mech s = XAnonymousS -> step e s (Some m) script = (Ok st, out, s') -> is_trace m).
Proof.
  intros H. destruct (step ex_e (ex_start XAnonymousS) (Some (repeat "x"%char (1 + 4 * 255))) []) as [[r out] s'] eqn:E.
  assert (R : r = Ok (Finished false)) by (vm_compute in E; congruence). subst r.
  pose proof (H ex_e (ex_start XAnonymousS) _ _ _ _ _ eq_refl E) as N. apply trace_length in N.
  rewrite repeat_length in N. lia.
Qed.
Print Assumptions C88_anonymous_only_refuted.
Theorem C88_anonymous_long : forall e s m script r out s',
  s_mech s = XAnonymousS -> utf8_text m -> step e s (Some m) script = (r, out, s') ->
  exists c, new_events s s' [EvValidate c] /\ offers_only c PAnonymousToken m /\ validated r.
Proof. exact anonymous_long. Qed.
Print Assumptions C88_anonymous_long.

(** What they accept is of the grammar except for that: missing is that the password is text, *)
Theorem C88_plain_only_partial : forall e s m script st out s',
  s_mech s = XPlainS -> (forall y, ~ prepared e [] y) -> step e s (Some m) script = (Ok st, out, s') ->
  exists z a p, m = plain_message z a p /\ safe_text z /\ safe_text a /\ a <> [] /\ nul_free p /\ p <> [].
Proof. exact plain_only. Qed.
Print Assumptions C88_plain_only_partial.
(** that the identity has no NUL, *)
Theorem C88_external_only_partial : forall e s m script st out s',
  s_mech s = XExternalS -> step e s (Some m) script = (Ok st, out, s') -> utf8_text m.
Proof. exact external_only. Qed.
Print Assumptions C88_external_only_partial.
(** and that the trace information is short. *)
Theorem C88_anonymous_only_partial : forall e s m script st out s',
  s_mech s = XAnonymousS -> step e s (Some m) script = (Ok st, out, s') -> utf8_text m.
Proof. exact anonymous_only. Qed.
Print Assumptions C88_anonymous_only_partial.

(** C88, clients: PLAIN clients send messages of the grammar if they are given text; *)
Theorem C88_plain_sends : forall e s input script st out s',
  s_mech s = XPlainC -> polite e -> step e s input script = (Ok st, out, s') ->
  exists evs z a p, new_events s s' evs /\
    answers PAuthId evs = [a] /\ answers PPassword evs = [p] /\
    (answers PAuthzId evs = [z] \/ (answers PAuthzId evs = [] /\ z = [])) /\
    (utf8_text z -> utf8_text a -> utf8_text p -> is_plain out z a p).
Proof. exact plain_sends. Qed.
Print Assumptions C88_plain_sends.
(** the others send any text they are given. *)
Theorem C88_external_sends_refuted :
  ~ (forall e s input script st out s' evs,
       s_mech s = XExternalC -> polite e -> step e s input script = (Ok st, out, s') ->
       new_events s s' evs -> (forall x : bytes, In x (answers PAuthzId evs) -> utf8_text x) -> is_external out).
Proof.
  intros H. pose (e := ex_env (fun _ => ex_cb [mk_entry PAuthzId [nul]]) no_vcb no_chan).
  destruct (step e (ex_start XExternalC) None []) as [[r out] s'] eqn:E.
  assert (R : r = Ok (Finished true) /\ out = [nul] /\ answers PAuthzId (s_trace s') = [[nul]])
    by (vm_compute in E; injection E as <- <- <-; repeat split).
  destruct R as (-> & -> & A).
  destruct (H e (ex_start XExternalC) _ _ _ _ _ (s_trace s') eq_refl ltac:(intros tr c k; simpl; repeat split) E eq_refl) as [_ N].
  - rewrite A. intros x [<-|[]]. apply ascii_text. reflexivity.
  - apply N. left. reflexivity.
Qed.
Print Assumptions C88_external_sends_refuted.
Theorem C88_anonymous_sends_refuted :
  ~ (forall e s input script st out s' evs,
       s_mech s = XAnonymousC -> polite e -> step e s input script = (Ok st, out, s') ->
       new_events s s' evs -> (forall x : bytes, In x (answers PAnonymousToken evs) -> utf8_text x) -> is_trace out).
Proof.
  intros H. pose (x := repeat "x"%char (1 + 4 * 255)).
  pose (e := ex_env (fun _ => ex_cb [mk_entry PAnonymousToken x]) no_vcb no_chan).
  destruct (step e (ex_start XAnonymousC) None []) as [[r out] s'] eqn:E.
  assert (R : r = Ok (Finished true) /\ out = x /\ answers PAnonymousToken (s_trace s') = [x])
    by (vm_compute in E; injection E as <- <- <-; repeat split).
  destruct R as (-> & -> & A).
  pose proof (H e (ex_start XAnonymousC) _ _ _ _ _ (s_trace s') eq_refl ltac:(intros tr c k; simpl; repeat split) E eq_refl) as N.
  assert (T : is_trace x).
  { apply N. rewrite A. intros y [<-|[]]. apply ascii_text. vm_compute. reflexivity. }
  apply trace_length in T. unfold x in T. rewrite repeat_length in T. lia.
Qed.
Print Assumptions C88_anonymous_sends_refuted.

Example C88_example :
  is_plain (lit "admin" ++ nul :: lit "user" ++ nul :: lit "secret") (lit "admin") (lit "user") (lit "secret") /\
  is_external (lit "admin") /\ is_trace (lit "sirhc") /\ (forall y, ~ prepared ex_e [] y) /\
  fst (step ex_e (ex_start XPlainS) (Some (lit "admin" ++ nul :: lit "user" ++ nul :: lit "secret")) [])
    = (Ok (Finished false), []) /\
  fst (step ex_e (ex_start XExternalS) (Some (lit "admin")) []) = (Ok (Finished false), []) /\
  fst (step ex_e (ex_start XAnonymousS) (Some (lit "sirhc")) []) = (Ok (Finished false), []).
Proof.
  assert (S : forall x, forallb is_ascii x = true -> forallb (fun b => negb (Ascii.eqb b nul)) x = true -> safe_text x).
  { intros x A N. split; [apply ascii_text, A|]. intros K. rewrite forallb_forall in N. specialize (N _ K).
    rewrite Ascii.eqb_refl in N. discriminate. }
  split; [split; [reflexivity|]; repeat split; try discriminate; apply S; reflexivity|].
  split; [apply S; reflexivity|].
  split; [exists (map N_of_ascii (lit "sirhc")); split; [repeat constructor|split; [cbn; lia|reflexivity]]|].
  split; [intros y [[= <-] N]; apply N; reflexivity|]. repeat split; vm_compute; reflexivity.
Qed.
