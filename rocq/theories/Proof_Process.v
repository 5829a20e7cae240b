(** Proofs for C106. *)
From Coq Require Import Lia Cantor.
From Verif Require Import Bytes Base64 Types World Scram Session Spec_Simple Spec_Scram Spec_Random Process Spec_Process
  CallbackSpec Spec_Agree Proof_Random Proof_Shift Proof_Agree.

Lemma perform_moves e f g s c b o s' : perform (set_rng e f) s c = (o, s') ->
  exists k, s_rng s' = s_rng s + k /\
    ((forall j, j < k -> g (b + j) = f (s_rng s + j)) ->
     perform (set_rng e g) (placed s b) c = (o, placed s' (b + k))).
Proof.
  intros H.
  assert (Z : forall o s', s_rng s' = s_rng s -> (forall b, perform (set_rng e g) (placed s b) c = (o, placed s' b)) ->
    exists k, s_rng s' = s_rng s + k /\ ((forall j, j < k -> g (b + j) = f (s_rng s + j)) ->
      perform (set_rng e g) (placed s b) c = (o, placed s' (b + k)))).
  { intros o1 s1 H1 H2. exists 0. rewrite !Nat.add_0_r. auto. }
  destruct c as [input script|input|input script|input script|]; cbn [perform] in *.
  - destruct (step (set_rng e f) s input script) as [[r out] s1] eqn:E. injection H as <- <-.
    destruct (run_moves f g _ _ s script b r out s1 (mv_step_all e f g input) E) as (k & Hk & He).
    exists k. split; [exact Hk|]. intros Hf. unfold step. rewrite He by exact Hf. reflexivity.
  - unfold step64 in *. destruct input as [i|].
    + destruct (decode i) as [x|].
      * destruct (step (set_rng e f) s (Some x) []) as [[r out] s1] eqn:E. injection H as <- <-.
        destruct (run_moves f g _ _ s [] b r out s1 (mv_step_all e f g (Some x)) E) as (k & Hk & He).
        exists k. split; [exact Hk|]. intros Hf. unfold step. rewrite He by exact Hf. reflexivity.
      * injection H as <- <-. apply (Z (OutStep (Err EBase64) []) s); [reflexivity|]. reflexivity.
    + destruct (step (set_rng e f) s None []) as [[r out] s1] eqn:E. injection H as <- <-.
      destruct (run_moves f g _ _ s [] b r out s1 (mv_step_all e f g None) E) as (k & Hk & He).
      exists k. split; [exact Hk|]. intros Hf. unfold step. rewrite He by exact Hf. reflexivity.
  - destruct (session_encode (set_rng e f) s input script) as [[r out] s1] eqn:E. injection H as <- <-.
    destruct (run_moves f g _ _ s script b r out s1 (mv_encode e f g input) E) as (k & Hk & He).
    exists k. split; [exact Hk|]. intros Hf. unfold session_encode. rewrite He by exact Hf. reflexivity.
  - destruct (session_decode (set_rng e f) s input script) as [[r out] s1] eqn:E. injection H as <- <-.
    destruct (run_moves f g _ _ s script b r out s1 (mv_decode e f g input) E) as (k & Hk & He).
    exists k. split; [exact Hk|]. intros Hf. unfold session_decode. rewrite He by exact Hf. reflexivity.
  - injection H as <- <-. apply (Z (OutValue (s_val s)) (mk_session (s_mech s) (s_trace s) (s_rng s) None)); reflexivity.
Qed.

Lemma placed_placed s a b : placed (placed s a) b = placed s b.
Proof. reflexivity. Qed.

(** A session alone, at any place. *)
Lemma alone_moves g g' l : forall s a b, (forall j, g' (b + j) = g (a + j)) ->
  alone g' (placed s b) l = alone g (placed s a) l /\
  same_session (alone_after g' (placed s b) l) (alone_after g (placed s a) l).
Proof.
  induction l as [|[e c] l IH]; intros s a b Hg; [repeat split|].
  cbn [alone alone_after].
  destruct (perform (set_rng e g) (placed s a) c) as [o s1] eqn:E.
  destruct (perform_moves e g g' _ _ b _ _ E) as (k & Hk & He).
  rewrite placed_placed in He. cbn [placed s_rng] in Hk, He. rewrite He by (intros j _; apply Hg). cbn [snd].
  assert (E1 : s1 = placed s1 (a + k)) by (destruct s1; cbn in *; subst; reflexivity).
  destruct (IH s1 (a + k) (b + k)) as [H1 H2].
  { intros j. rewrite <- !Nat.add_assoc. apply Hg. }
  rewrite <- E1 in H1, H2. rewrite H1. split; [reflexivity|exact H2].
Qed.

Lemma those_same {X} i (x : X) l : those_of i ((i, x) :: l) = x :: those_of i l.
Proof. unfold those_of. cbn [filter fst]. rewrite Nat.eqb_refl. reflexivity. Qed.
Lemma those_other {X} i j (x : X) l : i <> j -> those_of i ((j, x) :: l) = those_of i l.
Proof.
  intros H. unfold those_of. cbn [filter fst]. destruct (Nat.eqb_spec j i); [congruence|reflexivity].
Qed.

Lemma isolated f l : forall p, exists place, own_places place /\ (forall i k, p_drawn p <= place i k) /\
  forall i,
    those_of i (together f p l) = alone (fun k => f (place i k)) (at_first (p_session p i)) (those_of i l) /\
    same_session (p_session (finally f p l) i)
      (alone_after (fun k => f (place i k)) (at_first (p_session p i)) (those_of i l)).
Proof.
  induction l as [|[i [e c]] l IH]; intros p.
  - exists (fun i k => p_drawn p + Cantor.to_nat (i, k)). split; [|split].
    + intros i j k n H. assert (E : Cantor.to_nat (i, k) = Cantor.to_nat (j, n)) by lia.
      apply Cantor.to_nat_inj in E. injection E as -> ->. auto.
    + intros i k. lia.
    + intros i. repeat split.
  - cbn [together finally]. unfold process_call.
    destruct (perform (set_rng e f) (placed (p_session p i) (p_drawn p)) c) as [o s1] eqn:E. cbn [snd].
    set (p1 := set_session p i s1).
    destruct (IH p1) as (place & Ho & Hd & Hi).
    destruct (perform_moves e f f _ _ 0 _ _ E) as (k & Hk & _). cbn [placed s_rng] in Hk.
    assert (D : p_drawn p1 = p_drawn p + k) by exact Hk.
    set (place' := fun j n => if Nat.eqb j i then if Nat.ltb n k then p_drawn p + n else place i (n - k)
                              else place j n).
    exists place'. split; [|split].
    + intros j1 j2 n1 n2. unfold place'.
      destruct (Nat.eqb_spec j1 i), (Nat.eqb_spec j2 i);
        try (destruct (Nat.ltb_spec n1 k) as [L1|L1]); try (destruct (Nat.ltb_spec n2 k) as [L2|L2]); intros H.
      all: pose proof (Hd i (n2 - k)); pose proof (Hd i (n1 - k)); pose proof (Hd j2 n2); pose proof (Hd j1 n1);
        first [ exfalso; lia | split; [congruence|lia]
              | apply Ho in H; destruct H; first [exfalso; congruence | split; [congruence|lia]] ].
    + intros j n. unfold place'. destruct (Nat.eqb j i); [destruct (Nat.ltb n k); [lia|]|];
        [pose proof (Hd i (n - k))|pose proof (Hd j n)]; lia.
    + intros j. destruct (Nat.eq_dec j i) as [->|N].
      * rewrite !those_same. cbn [alone alone_after].
        destruct (perform_moves e f (fun n => f (place' i n)) _ _ 0 _ _ E) as (k' & Hk' & He).
        cbn [placed s_rng] in Hk', He. assert (k' = k) by lia. subst k'.
        rewrite placed_placed in He. unfold at_first, placed in He |- *. rewrite He.
        2:{ intros n Hn. unfold place'. rewrite Nat.eqb_refl. apply Nat.ltb_lt in Hn. cbn [plus]. rewrite Hn. reflexivity. }
        cbn [snd plus]. destruct (Hi i) as [H1 H2].
        replace (p_session p1 i) with s1 in * by (unfold p1, set_session; cbn; rewrite Nat.eqb_refl; reflexivity).
        destruct (alone_moves (fun n => f (place i n)) (fun n => f (place' i n)) (those_of i l) s1 0 k) as [A1 A2].
        { intros n. cbn [plus]. unfold place'. rewrite Nat.eqb_refl.
          destruct (Nat.ltb_spec (k + n) k); [lia|]. f_equal. f_equal. lia. }
        unfold placed in A1, A2. unfold at_first in H1, H2.
        rewrite H1, A1. split; [reflexivity|].
        destruct H2 as (Q1 & Q2 & Q3), A2 as (R1 & R2 & R3).
        unfold same_session. rewrite Q1, Q2, Q3, R1, R2, R3. auto.
      * rewrite those_other by exact N. rewrite (those_other j i (e, c)) by exact N. destruct (Hi j) as [H1 H2].
        replace (p_session p1 j) with (p_session p j) in *
          by (unfold p1, set_session; cbn; destruct (Nat.eqb_spec j i); [congruence|reflexivity]).
        rewrite H1.
        destruct (alone_moves (fun n => f (place j n)) (fun n => f (place' j n)) (those_of j l) (p_session p j) 0 0)
          as [A1 A2].
        { intros n. unfold place'. destruct (Nat.eqb_spec j i); [congruence|reflexivity]. }
        unfold placed in A1, A2. unfold at_first in *. rewrite A1. split; [reflexivity|].
        destruct H2 as (Q1 & Q2 & Q3), A2 as (R1 & R2 & R3).
        unfold same_session. rewrite Q1, Q2, Q3, R1, R2, R3. auto.
Qed.

(** Sessions that draw no numbers depend on none. *)
Definition no_draws (s : session) : Prop := ~ new_scram_client s /\ ~ new_scram_server s.

Lemma on_form {L A} (f : L -> mech) x (m : M L A) l w : exists y, snd (fst (on f x m l w)) = f y.
Proof. unfold on. destruct (m x w) as [[r y] w1]. exists y. reflexivity. Qed.

Lemma layer_mech {A} (m : M mech A) s script r out s' :
  (forall l w, (exists x, snd (fst (m l w)) = XGssapiC x) \/ (exists x, snd (fst (m l w)) = XGssapiS x) \/
     snd (fst (m l w)) = l) ->
  run m s script = (r, out, s') -> no_draws s -> no_draws s'.
Proof.
  intros K H N. unfold run in H.
  specialize (K (s_mech s) (mk_world [] script (s_trace s) (s_rng s) (s_val s))).
  destruct (m (s_mech s) _) as [[r1 l1] w1]. injection H as <- <- <-. cbn [fst snd] in K.
  unfold no_draws, new_scram_client, new_scram_server in *. cbn [s_mech].
  destruct K as [ [x ->] | [ [x ->] | -> ] ]; [split; intros (a & b & E); discriminate E|split; intros (a & b & E); discriminate E|exact N].
Qed.

Lemma perform_no_draws e s c o s' : perform e s c = (o, s') -> no_draws s -> s_rng s' = s_rng s /\ no_draws s'.
Proof.
  intros H N.
  assert (S : forall input script r out s', step e s input script = (r, out, s') -> s_rng s' = s_rng s /\ no_draws s').
  { intros input script r out s1 E. destruct (draws_step _ _ _ _ _ _ _ E) as (k & Hk & [ -> | [ [K _] | [K _] ] ]);
      [|destruct N; tauto..]. split; [lia|]. pose proof (step_not_new e s input script) as W. rewrite E in W. exact W. }
  destruct c as [input script|input|input script|input script|]; cbn [perform] in H.
  - destruct (step e s input script) as [[r out] s1] eqn:E. injection H as <- <-. eapply S; exact E.
  - unfold step64 in H. destruct input as [i|].
    + destruct (decode i) as [x|]; [|injection H as <- <-; auto].
      destruct (step e s (Some x) []) as [[r out] s1] eqn:E. injection H as <- <-. eapply S; exact E.
    + destruct (step e s None []) as [[r out] s1] eqn:E. injection H as <- <-. eapply S; exact E.
  - pose proof (proj1 (layer_draws e (e_rng e) s input script)) as L.
    destruct (session_encode e s input script) as [[r out] s1] eqn:E. injection H as <- <-. split; [apply L|].
    eapply layer_mech; [|exact E|exact N]. intros l w. unfold mech_encode, bind, getl.
    destruct l; try (right; right; reflexivity);
      [left|right; left]; apply on_form.
  - pose proof (proj2 (layer_draws e (e_rng e) s input script)) as L.
    destruct (session_decode e s input script) as [[r out] s1] eqn:E. injection H as <- <-. split; [apply L|].
    eapply layer_mech; [|exact E|exact N]. intros l w. unfold mech_decode, bind, getl.
    destruct l; try (right; right; reflexivity);
      [left|right; left]; apply on_form.
  - injection H as <- <-. split; [reflexivity|exact N].
Qed.

Lemma alone_any g g' l : forall s b, no_draws s -> alone g' (placed s b) l = alone g s l.
Proof.
  induction l as [|[e c] l IH]; intros s b N; [reflexivity|]. cbn [alone].
  destruct (perform (set_rng e g) s c) as [o s1] eqn:E.
  destruct (perform_no_draws _ _ _ _ _ E N) as [R N1].
  destruct (perform_moves e g g' _ _ b _ _ E) as (k & Hk & He). assert (k = 0) by lia. subst k.
  rewrite He by (intros j Hj; lia). rewrite IH by exact N1. reflexivity.
Qed.

Lemma unaffected f p l i g : no_draws (p_session p i) ->
  those_of i (together f p l) = alone g (at_first (p_session p i)) (those_of i l).
Proof.
  intros N. destruct (isolated f l p) as (place & _ & _ & H). destruct (H i) as [-> _].
  change (at_first (p_session p i)) with (placed (at_first (p_session p i)) 0) at 1.
  apply alone_any. exact N.
Qed.

(** A final message accepted by two sessions. *)
Lemma alone_two g s e m1 m sc1 sc2 st o1 r o :
  alone g s [(e, CallStep (Some m1) sc1); (e, CallStep (Some m) sc2)] = [OutStep (Ok st) o1; OutStep r o] ->
  exists s1 s2, step (set_rng e g) s (Some m1) sc1 = (Ok st, o1, s1) /\
    step (set_rng e g) s1 (Some m) sc2 = (r, o, s2).
Proof.
  cbn [alone perform]. destruct (step (set_rng e g) s (Some m1) sc1) as [[r1 w1] s1].
  destruct (step (set_rng e g) s1 (Some m) sc2) as [[r2 w2] s2] eqn:E.
  intros H. injection H as -> -> -> ->. exists s1, s2. auto.
Qed.

Lemma replay f p l i j a a' plus plus' e e' m1 m1' sc1 sc1' m sc2 sc2' st st' o1 o1' r r' o o' :
  i <> j ->
  s_mech (p_session p i) = XScramS a (Some (SsClientFirst plus)) -> crypto_ok e -> no_zero sc1 ->
  s_mech (p_session p j) = XScramS a' (Some (SsClientFirst plus')) -> crypto_ok e' -> no_zero sc1' ->
  those_of i l = [(e, CallStep (Some m1) sc1); (e, CallStep (Some m) sc2)] ->
  those_of j l = [(e', CallStep (Some m1') sc1'); (e', CallStep (Some m) sc2')] ->
  those_of i (together f p l) = [OutStep (Ok st) o1; OutStep r ("v"%char :: o)] ->
  those_of j (together f p l) = [OutStep (Ok st') o1'; OutStep r' ("v"%char :: o')] ->
  exists place place', (forall k k', place k = place k' -> k = k') /\
    (forall k k', place' k = place' k' -> k = k') /\ (forall k k', place k <> place' k') /\
    nonce_at f place = nonce_at f place'.
Proof.
  intros D Em Hc Hz Em' Hc' Hz' Hi Hj Oi Oj.
  destruct (isolated f l p) as (place & Own & _ & H).
  destruct (H i) as [Ei _]. destruct (H j) as [Ej _]. rewrite Hi, Oi in Ei. rewrite Hj, Oj in Ej.
  symmetry in Ei, Ej. apply alone_two in Ei, Ej.
  destruct Ei as (s1 & s2 & S1 & S2). destruct Ej as (s1' & s2' & S1' & S2').
  exists (place i), (place j). split; [intros k k' E; apply (Own _ _ _ _ E)|].
  split; [intros k k' E; apply (Own _ _ _ _ E)|]. split; [intros k k' E; apply D; apply (Own _ _ _ _ E)|].
  refine (final_once (set_rng e (fun k => f (place i k))) (set_rng e' (fun k => f (place j k)))
            (at_first (p_session p i)) (at_first (p_session p j)) a a' plus plus' m1 m1' sc1 sc1' st st' o1 o1' s1 s1' m sc2 sc2' r r' _ _ s2 s2'
            Em Hc Hz Em' Hc' Hz' S1 S1' S2 S2' _ _); right; eexists; reflexivity.
Qed.
