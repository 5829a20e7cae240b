(** Lemmas about what the programs of the interop crate have read. *)
From Coq Require Import Lia.
From Verif Require Import Bytes BytesFacts Types World Session Registry Apps Interop Spec_Hear.

(** * Words *)

Lemma ws_len_three a b c r r' : ws_len (a :: b :: c :: r) = ws_len (a :: b :: c :: r').
Proof. reflexivity. Qed.
Lemma ws_len_prefix r x : ws_len (r ++ x) = 0 -> ws_len r = 0.
Proof.
  destruct r as [|a [|b [|c r]]].
  - reflexivity.
  - cbn [app]. unfold ws_len. cbn [map]. destruct (N_of_ascii a) as [|p]; [reflexivity|].
    intros H. repeat (destruct p as [p|p|]; try reflexivity; try discriminate H).
  - cbn [app]. unfold ws_len. cbn [map]. destruct (N_of_ascii a) as [|p]; [reflexivity|].
    generalize (N_of_ascii b). intros [|q] H.
    + repeat (destruct p as [p|p|]; try reflexivity; try discriminate H).
    + repeat (destruct p as [p|p|]; try reflexivity; try discriminate H);
      repeat (destruct q as [q|q|]; try reflexivity; try discriminate H).
  - cbn [app]. intros H. rewrite (ws_len_three a b c r (r ++ x)). exact H.
Qed.

Lemma words_from_spec b : forall cur skip w, (skip = 0 \/ cur = []) ->
  (forall pre r, cur = pre ++ r -> r <> [] -> ws_len (r ++ b) = 0) -> In w (words_from cur skip b) ->
  w <> [] /\ unbroken w /\ exists pre post, cur ++ b = pre ++ w ++ post.
Proof.
  assert (F : forall cur b w, (forall pre r, cur = pre ++ r -> r <> [] -> ws_len (r ++ b) = 0) ->
    In w (flush cur) -> w <> [] /\ unbroken w /\ w = cur).
  { intros [|c cur] b0 w U H; [destruct H|]. destruct H as [<-|[]]. split; [discriminate|].
    split; [|reflexivity]. intros pre [|x r] E; [reflexivity|].
    apply (ws_len_prefix _ b0). apply (U pre); [exact E|discriminate]. }
  assert (N : forall b0 pre r, @nil byte = pre ++ r -> r <> [] -> ws_len (r ++ b0) = 0).
  { intros b0 pre r E D. symmetry in E. apply app_eq_nil in E. destruct E as [_ ->]. destruct (D eq_refl). }
  induction b as [|c r IH]; intros cur skip w K U H; cbn [words_from] in H.
  - destruct (F _ _ _ U H) as (A & B & ->). split; [exact A|]. split; [exact B|]. exists [], []. reflexivity.
  - destruct skip as [|k].
    + destruct (ws_len (c :: r)) as [|k] eqn:W.
      * destruct (IH (cur ++ [c]) 0 w) as (A & B & pre & post & E); [auto| |exact H|].
        -- intros pre x E D. destruct (exists_last D) as (y & z & ->). rewrite app_assoc in E.
           apply app_inj_tail in E. destruct E as [E <-]. rewrite <- app_assoc. cbn [app].
           destruct y as [|y0 y]; [exact W|]. apply (U pre); [exact E|discriminate].
        -- split; [exact A|]. split; [exact B|]. exists pre, post. rewrite <- E, <- app_assoc. reflexivity.
      * apply in_app_or in H. destruct H as [H|H].
        -- destruct (F _ _ _ U H) as (A & B & ->). split; [exact A|]. split; [exact B|].
           exists [], (c :: r). reflexivity.
        -- destruct (IH [] k w) as (A & B & pre & post & E); [auto|apply N|exact H|].
           split; [exact A|]. split; [exact B|]. exists (cur ++ c :: pre), post. cbn [app] in E.
           rewrite E, <- app_assoc. reflexivity.
    + destruct K as [K| ->]; [discriminate K|].
      destruct (IH [] k w) as (A & B & pre & post & E); [auto|apply N|exact H|].
      split; [exact A|]. split; [exact B|]. exists (c :: pre), post. cbn [app] in *. rewrite E. reflexivity.
Qed.
Theorem words_spec b w : In w (words b) ->
  w <> [] /\ unbroken w /\ exists pre post, b = pre ++ w ++ post.
Proof.
  intros H. apply (words_from_spec b [] 0); [auto| |exact H].
  intros pre r E D. symmetry in E. apply app_eq_nil in E. destruct E as [_ ->]. destruct (D eq_refl).
Qed.

(** * The test client *)

(** The list of mechanisms has been read, the outcome has not. *)
Fixpoint pending (t : tc) : Prop :=
  match t with
  | TcWrite _ k => pending k
  | TcEnd (TcReturned _) => False
  | TcMechs => False
  | _ => True
  end.
Lemma loop_pending s c : pending (tc_loop s c).
Proof. unfold tc_loop. destruct (running s); exact Logic.I. Qed.
Lemma round_pending c l : pending (tc_round c l).
Proof.
  unfold tc_round. destruct l; try exact Logic.I.
  destruct (step_line c _) as [[[s|x|] b] c']; try exact Logic.I. cbn [pending]. apply loop_pending.
Qed.
Lemma round_text c l e a mech ls o : hears (test_client e a mech) (tc_round c l) ls (TcReturned o) ->
  exists t, l = LText t.
Proof.
  destruct l as [| |t]; [| |eauto]; cbn [tc_round]; intros H; inversion H as [? ? E|? ? ? ? ? E|? ? ? ? ? E]; discriminate E.
Qed.
Lemma initial_pending c : pending (tc_initial c).
Proof.
  unfold tc_initial. destruct (are_we_first _ _).
  - destruct (step_line c _) as [[[s|x|] b] c']; try exact Logic.I.
    destruct (sent_message s); cbn [pending]; apply loop_pending.
  - cbn [pending]. apply loop_pending.
Qed.

Lemma pending_lines e a mech t ls o : hears (test_client e a mech) t ls (TcReturned o) -> pending t ->
  exists mids, ls = map LText mids ++ [LText o].
Proof.
  intros H. remember (TcReturned o) as r eqn:R. induction H as [t r E|t b k ls r E H IH|t k l ls r E H IH]; intros P.
  - destruct t; try discriminate E. injection E as ->. rewrite R in P. destruct P.
  - destruct t; try discriminate E. injection E as -> ->. apply IH; [exact R|exact P].
  - destruct t; try discriminate E.
    + destruct P.
    + injection E as <-. destruct (IH R (round_pending _ _)) as [mids ->]. rewrite R in H.
      destruct (round_text _ _ _ _ _ _ _ H) as [x ->]. exists (x :: mids). reflexivity.
    + injection E as <-. inversion H as [? ? E|? ? ? ? ? E|? ? ? ? ? E]; subst; [|discriminate E|discriminate E].
      cbn in E. injection E as E. destruct l; try discriminate E. injection E as ->. exists []. reflexivity.
Qed.

Theorem outcome_lines e a mech ls o :
  hears (test_client e a mech) TcMechs ls (TcReturned o) ->
  exists list mids, ls = LText list :: map LText mids ++ [LText o] /\ In mech (words list).
Proof.
  intros H. inversion H as [? ? E|? ? ? ? ? E|t k l ls' r E H']; subst; [discriminate E|discriminate E|].
  cbn in E. injection E as <-. unfold tc_mechs in H'.
  assert (D : hears (test_client e a mech) (TcEnd TcPanicked) ls' (TcReturned o) -> False).
  { intros D. inversion D as [? ? E|? ? ? ? ? E|? ? ? ? ? E]; discriminate E. }
  destruct l as [| |line]; try solve [destruct (D H')].
  destruct (existsb _ (words line)) eqn:X; [|destruct (D H')].
  apply existsb_exists in X. destruct X as (w & W & X). apply bytes_eqb_eq in X. subst w.
  destruct (client_start _ _ _ _) as [[i d]|x|]; try solve [destruct (D H')].
  destruct (fresh e a SClient i d) as [c|]; [|destruct (D H')].
  destruct (pending_lines _ _ _ _ _ _ H' (initial_pending c)) as [mids ->].
  exists line, mids. split; [reflexivity|exact W].
Qed.
