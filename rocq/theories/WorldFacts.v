(** Lemmas about writing and callbacks. *)
From Coq Require Import Lia Eqdep_dec.
From Verif Require Import Bytes Types World CallbackSpec BytesFacts.

(** * casts *)

Lemma castp_refl q (v : pval q) : @castp q q v = Some v.
Proof.
  unfold castp. destruct (prop_eq_dec q q) as [E|N]; [|congruence].
  rewrite (UIP_dec prop_eq_dec E eq_refl). reflexivity.
Qed.
Lemma castp_neq p q (v : pval p) : p <> q -> @castp p q v = None.
Proof. intros H. unfold castp. destruct (prop_eq_dec p q); [congruence|reflexivity]. Qed.
Lemma castp_some p q (v : pval p) (x : pval q) :
  @castp p q v = Some x -> exists E : p = q, eq_rect p pval v q E = x.
Proof.
  unfold castp. destruct (prop_eq_dec p q) as [E|]; [|discriminate].
  intros H; inversion H; eauto.
Qed.

(** * events *)

Lemma add_event_events ev w : add_event ev w = add_events [ev] w.
Proof. reflexivity. Qed.
Lemma add_events_app a b w : add_events b (add_events a w) = add_events (a ++ b) w.
Proof. unfold add_events; simpl. rewrite app_assoc. reflexivity. Qed.
Lemma add_events_nil w : add_events [] w = w.
Proof. destruct w; unfold add_events; simpl. rewrite app_nil_r. reflexivity. Qed.
Lemma add_out_nil w : add_out [] w = w.
Proof. destruct w; unfold add_out; simpl. rewrite app_nil_r. reflexivity. Qed.
Lemma add_out_app a b w : add_out b (add_out a w) = add_out (a ++ b) w.
Proof. unfold add_out; simpl. rewrite app_assoc. reflexivity. Qed.

Lemma answers_app q a b : answers q (a ++ b) = answers q a ++ answers q b.
Proof.
  induction a as [|ev a IH]; [reflexivity|].
  destruct ev; simpl; try assumption. destruct (castp v); rewrite IH; reflexivity.
Qed.
Lemma validations_app a b : validations (a ++ b) = validations a ++ validations b.
Proof.
  induction a as [|ev a IH]; [reflexivity|]. destruct ev; simpl; rewrite ?IH; reflexivity.
Qed.
Lemma asked_app a b : asked (a ++ b) = asked a ++ asked b.
Proof.
  induction a as [|ev a IH]; [reflexivity|]. destruct ev; simpl; rewrite ?IH; reflexivity.
Qed.
Lemma answers_closures q evs : only_closures evs -> answers q evs = [].
Proof. induction 1 as [|ev r H _ IH]; [reflexivity|]. destruct ev; tauto. Qed.
Lemma validations_closures evs : only_closures evs -> validations evs = [].
Proof. induction 1 as [|ev r H _ IH]; [reflexivity|]. destruct ev; tauto. Qed.
Lemma asked_closures evs : only_closures evs -> asked evs = [].
Proof. induction 1 as [|ev r H _ IH]; [reflexivity|]. destruct ev; tauto. Qed.

(** * write_all *)

(** [s'] is what is left of the script [s]. *)
Definition script_left (s s' : list wresp) : Prop := exists u, s = u ++ s'.
Lemma script_left_refl s : script_left s s.
Proof. exists []; reflexivity. Qed.
Lemma script_left_trans a b c : script_left a b -> script_left b c -> script_left a c.
Proof. intros [u ->] [v ->]. exists (u ++ v). rewrite app_assoc; reflexivity. Qed.
Lemma no_zero_left s s' : script_left s s' -> no_zero s -> no_zero s'.
Proof. intros [u ->] H. apply Forall_app in H. tauto. Qed.

(** [w'] is [w] after the writer received [p], nothing else changed. *)
Definition wrote (p : bytes) (w w' : world) : Prop :=
  w_out w' = w_out w ++ p /\ w_trace w' = w_trace w /\ w_rng w' = w_rng w /\
  w_val w' = w_val w /\ script_left (w_script w) (w_script w').

Lemma wrote_refl w : wrote [] w w.
Proof. repeat split; auto using script_left_refl. rewrite app_nil_r; reflexivity. Qed.
Lemma wrote_trans p q a b c : wrote p a b -> wrote q b c -> wrote (p ++ q) a c.
Proof.
  intros [Ho [Ht [Hr [Hv Hs]]]] [Ho' [Ht' [Hr' [Hv' Hs']]]].
  repeat split; try congruence.
  - rewrite Ho', Ho, app_assoc. reflexivity.
  - eapply script_left_trans; eauto.
Qed.

Lemma write1_spec data w :
  match write1 data w with
  | (inl e, w') => wrote [] w w' /\ length (w_script w') < length (w_script w)
  | (inr None, w') => wrote [] w w' /\ length (w_script w') < length (w_script w)
  | (inr (Some k), w') =>
      k <= length data /\ wrote (firstn k data) w w' /\
      (length (w_script w') < length (w_script w) \/
       (k = length data /\ w_script w' = [] /\ w_script w = [])) /\
      (k = 0 -> no_zero (w_script w) -> data = [])
  end.
Proof.
  destruct w as [o s tr rg v]. unfold write1. simpl.
  destruct s as [|[n|n|] s]; simpl.
  - split; [lia|]. split.
    + rewrite firstn_all. unfold wrote; simpl. repeat split; auto using script_left_refl.
    + split; [right; auto|]. intros H _. destruct data; [reflexivity|discriminate].
  - split; [lia|]. split.
    + unfold wrote; simpl. repeat split; auto. exists [WAccept n]; reflexivity.
    + split; [left; lia|]. intros H Hz. inversion Hz as [|? ? Hn _]; subst.
      destruct data; [reflexivity|]. simpl in H. destruct n; [congruence|]. discriminate.
  - split; [|lia]. unfold wrote; simpl. rewrite app_nil_r.
    repeat split; auto. exists [WFail n]; reflexivity.
  - split; [|lia]. unfold wrote; simpl. rewrite app_nil_r.
    repeat split; auto. exists [WInterrupt]; reflexivity.
Qed.

Lemma write_all_fuel_spec fuel data w :
  length (w_script w) < fuel ->
  exists p q, data = p ++ q /\
    match write_all_fuel fuel data w with
    | (r, w') => wrote p w w' /\ (r = Ok tt /\ q = [] \/ exists x, r = Err (EIo x))
    end.
Proof.
  revert data w. induction fuel as [|f IH]; intros data w Hf; [lia|].
  destruct data as [|b data'].
  - exists [], []. split; [reflexivity|]. simpl. split; [apply wrote_refl|]. left; auto.
  - cbn [write_all_fuel].
    pose proof (write1_spec (b :: data') w) as H1.
    destruct (write1 (b :: data') w) as [[e|[k|]] w1].
    + destruct H1 as [Hw _]. exists [], (b :: data'). split; [reflexivity|].
      split; [assumption|]. right; eauto.
    + destruct H1 as [Hk [Hw [Hs _]]]. destruct k as [|k'].
      * exists [], (b :: data'). split; [reflexivity|]. split; [exact Hw|]. right; eauto.
      * remember (S k') as k. remember (b :: data') as data.
        destruct Hs as [Hs|[Hk2 [Hs1 Hs2]]].
        -- destruct (IH (skipn k data) w1) as [p [q [E H]]]; [lia|].
           destruct (write_all_fuel f (skipn k data) w1) as [r w'].
           exists (firstn k data ++ p), q. split.
           ++ rewrite <- app_assoc, <- E, firstn_skipn. reflexivity.
           ++ destruct H as [H1 H2]. split; [eapply wrote_trans; eauto|assumption].
        -- rewrite Hk2. rewrite skipn_all. destruct f; simpl.
           ++ exists data, []. rewrite app_nil_r. split; [reflexivity|].
              rewrite Hk2, firstn_all in Hw. split; [assumption|]. left; auto.
           ++ exists data, []. rewrite app_nil_r. split; [reflexivity|].
              rewrite Hk2, firstn_all in Hw. split; [assumption|]. left; auto.
    + destruct H1 as [Hw Hs].
      destruct (IH (b :: data') w1) as [p [q [E H]]]; [lia|].
      destruct (write_all_fuel f (b :: data') w1) as [r w'].
      exists p, q. split; [assumption|]. destruct H as [H1 H2].
      split; [|assumption]. change p with ([] ++ p). eapply wrote_trans; eauto.
Qed.

(** Whatever the writer does: it receives a prefix of the data, all of it on Ok; write_all
    never panics and touches nothing else. *)
Lemma write_all_spec {L} data (l : L) w :
  exists p q w', data = p ++ q /\ wrote p w w' /\
    ((write_all data l w = (Ok tt, l, w') /\ q = []) \/
     exists x, write_all data l w = (Err (EIo x), l, w')).
Proof.
  unfold write_all.
  destruct (write_all_fuel_spec (S (length (w_script w))) data w) as [p [q [E H]]]; [lia|].
  destruct (write_all_fuel _ data w) as [r w']. destruct H as [Hw Hr].
  exists p, q, w'. split; [assumption|]. split; [assumption|].
  destruct Hr as [[-> ->]|[x ->]]; [left; auto|right; eauto].
Qed.

Lemma write_all_fuel_full fuel data w :
  w_script w = [] -> write_all_fuel (S fuel) data w = (Ok tt, add_out data w).
Proof.
  intros Hs. destruct data as [|b data].
  - simpl. rewrite add_out_nil. reflexivity.
  - cbn [write_all_fuel]. unfold write1. rewrite Hs. cbn [length].
    change (S (length data)) with (length (b :: data)). rewrite skipn_all.
    destruct fuel; simpl; unfold add_out; rewrite Hs; reflexivity.
Qed.

(** A writer that accepts everything receives all the data. *)
Lemma write_all_full {L} data (l : L) w :
  w_script w = [] -> write_all data l w = (Ok tt, l, add_out data w).
Proof.
  intros Hs. unfold write_all. rewrite write_all_fuel_full by assumption. reflexivity.
Qed.

(** * vectored writes *)

Lemma count_removed_spec bufs acc len n a :
  count_removed bufs acc len = (n, a) -> acc <= len ->
  len <= acc + length (concat bufs) ->
  acc <= a /\ a <= len /\
  skipn (len - acc) (concat bufs) =
    match skipn n bufs with [] => [] | b :: r => skipn (len - a) b ++ concat r end /\
  (skipn n bufs = [] -> len = acc + length (concat bufs)).
Proof.
  revert acc n a. induction bufs as [|b bufs IH]; intros acc n a Hc Hle Hlen.
  - simpl in *. inversion Hc; subst. simpl. rewrite skipn_nil.
    split; [lia|]. split; [assumption|]. split; [reflexivity|]. lia.
  - cbn [count_removed] in Hc. cbn [concat] in Hlen. rewrite app_length in Hlen.
    destruct (Nat.ltb_spec len (acc + length b)) as [Hlt|Hge].
    + inversion Hc; subst. cbn [skipn].
      split; [lia|]. split; [assumption|]. split; [|discriminate].
      cbn [concat]. rewrite skipn_app.
      replace (len - a - length b) with 0 by lia. reflexivity.
    + destruct (count_removed bufs (acc + length b) len) as [n' a'] eqn:Hc'.
      inversion Hc; subst.
      destruct (IH _ _ _ Hc') as [H1 [H2 [H3 H4]]]; [lia|lia|].
      split; [lia|]. split; [assumption|]. cbn [skipn]. split.
      * cbn [concat]. rewrite skipn_app.
        rewrite (skipn_all2 b) by lia. rewrite <- H3. simpl. f_equal. lia.
      * intros Hx. cbn [concat]. rewrite app_length. specialize (H4 Hx). lia.
Qed.

Lemma vec_inner_spec bufs w :
  match vec_inner bufs w with
  | (inl e, w') => wrote [] w w' /\ bufs <> []
  | (inr (len, bufs'), w') =>
      len <= length (concat bufs) /\ wrote (firstn len (concat bufs)) w w' /\
      concat bufs' = skipn len (concat bufs) /\
      (length (w_script w') < length (w_script w) \/ len = length (concat bufs)) /\
      (len = length (concat bufs) -> bufs' = [] \/ len = 0) /\
      (len = 0 -> no_zero (w_script w) -> concat bufs = [])
  end.
Proof.
  unfold vec_inner. destruct bufs as [|b0 bufs0].
  - simpl. split; [lia|]. split; [apply wrote_refl|]. split; [reflexivity|]. auto.
  - remember (b0 :: bufs0) as bufs.
    pose proof (write1_spec (concat bufs) w) as H1.
    destruct (write1 (concat bufs) w) as [[e|[len|]] w1].
    + destruct H1 as [Hw _]. split; [assumption|]. subst; discriminate.
    + destruct H1 as [Hk [Hw [Hs Hz]]].
      destruct (count_removed bufs 0 len) as [removed acc] eqn:Hc.
      destruct (count_removed_spec _ _ _ _ _ Hc) as [H1 [H2 [H3 H4]]]; [lia|lia|].
      rewrite Nat.sub_0_r in H3.
      destruct (skipn removed bufs) as [|b r] eqn:Er.
      * split; [lia|]. split; [assumption|]. split; [simpl; congruence|].
        split; [tauto|]. split; [auto|]. assumption.
      * split; [lia|]. split; [assumption|]. split; [simpl; congruence|].
        split; [tauto|]. split; [|assumption].
        (* everything written but buffers left: then only empty buffers ... *)
        intros Hfull. exfalso.
        revert Hc Er. clear - Hfull. intros Hc Er.
        assert (Hgen : forall bufs acc0 n a, count_removed bufs acc0 len = (n, a) ->
                  acc0 + length (concat bufs) <= len -> skipn n bufs = []).
        { clear. induction bufs as [|b bufs IH]; intros acc0 n a Hc Hle.
          - apply skipn_nil.
          - cbn [count_removed] in Hc. cbn [concat] in Hle. rewrite app_length in Hle.
            destruct (Nat.ltb_spec len (acc0 + length b)); [lia|].
            destruct (count_removed bufs (acc0 + length b) len) as [n' a'] eqn:Hc'.
            inversion Hc; subst. cbn [skipn]. eapply IH; eauto. lia. }
        rewrite (Hgen bufs 0 removed acc Hc) in Er; [discriminate|lia].
    + destruct H1 as [Hw _]. split; [assumption|]. subst; discriminate.
Qed.

Lemma vec_loop_spec fuel bufs n w :
  length (w_script w) < fuel ->
  exists p q, concat bufs = p ++ q /\
    match vec_loop fuel bufs n w with
    | (r, w') => wrote p w w' /\
        (r = Ok (n + length p) /\ (no_zero (w_script w) -> q = []) \/
         exists x, r = Err (EIo x))
    end.
Proof.
  revert bufs n w. induction fuel as [|f IH]; intros bufs n w Hf; [lia|].
  cbn [vec_loop]. pose proof (vec_inner_spec bufs w) as H1.
  destruct (vec_inner bufs w) as [[e|[len bufs']] w1].
  - destruct H1 as [Hw _]. exists [], (concat bufs). split; [reflexivity|].
    split; [assumption|]. right; eauto.
  - destruct H1 as [Hle [Hw [Hcat [Hs [Hfull Hz]]]]].
    destruct len as [|len'].
    + exists [], (concat bufs). split; [reflexivity|].
      split; [exact Hw|]. left. split; [simpl; f_equal; lia|]. auto.
    + remember (S len') as len. destruct bufs' as [|b1 r1].
      * exists (firstn len (concat bufs)), (skipn len (concat bufs)).
        rewrite firstn_skipn. split; [reflexivity|]. split; [assumption|].
        left. split.
        -- rewrite firstn_length_le by assumption. reflexivity.
        -- intros _. rewrite <- Hcat. reflexivity.
      * destruct Hs as [Hs|Hs].
        2:{ destruct (Hfull Hs) as [H|H]; [discriminate|subst; discriminate]. }
        destruct (IH (b1 :: r1) (n + len) w1) as [p [q [E H]]]; [lia|].
        destruct (vec_loop f (b1 :: r1) (n + len) w1) as [r w'].
        exists (firstn len (concat bufs) ++ p), q. split.
        -- rewrite <- app_assoc, <- E, Hcat, firstn_skipn. reflexivity.
        -- destruct H as [H1 H2]. split; [eapply wrote_trans; eauto|].
           destruct H2 as [[-> Hq]|[x ->]]; [|right; eauto].
           left. split.
           ++ rewrite app_length, firstn_length_le by assumption. f_equal. lia.
           ++ intros Hn. apply Hq. eapply no_zero_left; [|exact Hn]. apply Hw.
Qed.

(** Whatever the writer does: it receives a prefix of the concatenated buffers, the count
    returned is the length of that prefix, and if the writer never answers Ok(0), Ok means
    everything was written. *)
Lemma write_all_vectored_spec {L} bufs (l : L) w :
  exists p q w', concat bufs = p ++ q /\ wrote p w w' /\
    ((write_all_vectored bufs l w = (Ok (length p), l, w') /\
      (no_zero (w_script w) -> q = [])) \/
     exists x, write_all_vectored bufs l w = (Err (EIo x), l, w')).
Proof.
  unfold write_all_vectored. destruct bufs as [|b bufs].
  - exists [], [], w. split; [reflexivity|]. split; [apply wrote_refl|]. left; auto.
  - remember (b :: bufs) as bs.
    destruct (vec_loop_spec (S (S (length (w_script w)))) bs 0 w) as [p [q [E H]]]; [lia|].
    destruct (vec_loop _ bs 0 w) as [r w']. destruct H as [Hw Hr].
    exists p, q, w'. split; [assumption|]. split; [assumption|].
    destruct Hr as [[-> Hq]|[x ->]]; [left; auto|right; eauto].
Qed.

Lemma wrote_full p w w' : w_script w = [] -> wrote p w w' -> w' = add_out p w.
Proof.
  intros Hs [Ho [Ht [Hr [Hv [u Hu]]]]]. destruct w as [o s t r v], w' as [o' s' t' r' v'].
  simpl in *. subst. symmetry in Hu. apply app_eq_nil in Hu. destruct Hu as [_ ->].
  reflexivity.
Qed.

Lemma write1_full data w :
  w_script w = [] -> write1 data w = (inr (Some (length data)), add_out data w).
Proof. intros Hs. unfold write1, add_out. rewrite Hs. reflexivity. Qed.

Lemma vec_loop_full fuel bufs n w :
  w_script w = [] -> bufs <> [] ->
  vec_loop (S fuel) bufs n w = (Ok (n + length (concat bufs)), add_out (concat bufs) w).
Proof.
  intros Hs Hne. cbn [vec_loop]. unfold vec_inner.
  destruct bufs as [|b bufs0]; [congruence|]. remember (b :: bufs0) as bufs.
  rewrite (write1_full _ _ Hs).
  destruct (count_removed bufs 0 (length (concat bufs))) as [removed acc] eqn:Hc.
  assert (Hgen : forall bufs len acc0 n a, count_removed bufs acc0 len = (n, a) ->
            acc0 + length (concat bufs) <= len -> skipn n bufs = []).
  { clear. intros bufs len; induction bufs as [|b bufs IH]; intros acc0 n a Hc Hle.
    - apply skipn_nil.
    - cbn [count_removed] in Hc. cbn [concat] in Hle. rewrite app_length in Hle.
      destruct (Nat.ltb_spec len (acc0 + length b)); [lia|].
      destruct (count_removed bufs (acc0 + length b) len) as [n' a'] eqn:Hc'.
      inversion Hc; subst. cbn [skipn]. eapply IH; eauto. lia. }
  rewrite (Hgen _ _ _ _ _ Hc) by lia.
  destruct (length (concat bufs)) as [|k] eqn:El.
  - apply length_zero_iff_nil in El. rewrite El, add_out_nil. f_equal. f_equal. lia.
  - reflexivity.
Qed.

Lemma write_all_vectored_full {L} bufs (l : L) w :
  w_script w = [] ->
  write_all_vectored bufs l w = (Ok (length (concat bufs)), l, add_out (concat bufs) w).
Proof.
  intros Hs. unfold write_all_vectored. destruct bufs as [|b bufs].
  - simpl. rewrite add_out_nil. reflexivity.
  - rewrite vec_loop_full by (assumption || discriminate). reflexivity.
Qed.

(** * callbacks *)

(** The consumer of a request runs at most once. Either it did not run at all and nothing
    but closure evaluations happened, or it ran on exactly one value. *)
Inductive once {L G} (q : prop) (f : pval q -> M L G) (l : L) (w : world)
  : closure_cr G -> res serr cres -> L -> world -> Prop :=
| once_no cs r :
    only_closures cs -> once q f l w CrOpen (Ok r) l (add_events cs w)
| once_ok v cs1 cs2 g st r l1 w1 :
    only_closures cs1 -> only_closures cs2 ->
    f v l (add_events (cs1 ++ [EvAnswer q v]) w) = (Ok g, l1, w1) ->
    (st = CrSatisfied g \/ st = CrTaken) ->
    once q f l w st (Ok r) l1 (add_events cs2 w1)
| once_err v cs1 cs2 e r l1 w1 :
    only_closures cs1 -> only_closures cs2 ->
    f v l (add_events (cs1 ++ [EvAnswer q v]) w) = (Err e, l1, w1) ->
    once q f l w CrTaken (Ok r) l1 (add_events cs2 w1)
| once_panic v cs1 l1 w1 :
    only_closures cs1 ->
    f v l (add_events (cs1 ++ [EvAnswer q v]) w) = (Panic, l1, w1) ->
    once q f l w CrTaken Panic l1 w1.

(** After the consumer has run nothing but closure evaluations can follow. *)
Lemma run_satisfy_taken {L G} (q : prop) (f : pval q -> M L G) p st l w :
  st <> CrOpen ->
  exists r st' cs, run_satisfy q f p st l w = (Ok r, st', l, add_events cs w) /\
    only_closures cs /\ (st' = st \/ st' = CrTaken).
Proof.
  revert st w. induction p as [r|p v k IH|p c k IH|p k IH|p k IH]; intros st w Hst;
    cbn [run_satisfy].
  - exists r, st, []. rewrite add_events_nil. repeat split; auto. constructor.
  - destruct (castp v) as [v'|]; [|apply IH; assumption].
    unfold cr_satisfy. destruct st as [|g|]; [congruence| |].
    + destruct (IH (Some ECbEarlyReturn) CrTaken w) as [r [st' [cs [E [Hc Hs]]]]]; [discriminate|].
      exists r, st', cs. rewrite E. repeat split; auto. destruct Hs; auto.
    + destruct (IH (Some ECbEarlyReturn) CrTaken w) as [r [st' [cs [E [Hc Hs]]]]]; [discriminate|].
      exists r, st', cs. rewrite E. repeat split; auto.
  - destruct (prop_eq_dec p q) as [E|]; [|apply IH; assumption].
    assert (Hcl : forall st2 x, st2 <> CrOpen -> (st2 = st \/ st2 = CrTaken) ->
       exists r st' cs, run_satisfy q f (k x) st2 l (add_event (EvClosure p) w)
         = (Ok r, st', l, add_events cs w) /\ only_closures cs /\ (st' = st \/ st' = CrTaken)).
    { intros st2 x H2 H3.
      destruct (IH x st2 (add_event (EvClosure p) w) H2) as [r [st' [cs [Er [Hc Hs]]]]].
      exists r, st', (EvClosure p :: cs). rewrite Er.
      rewrite add_event_events, add_events_app. repeat split; [constructor; auto|].
      destruct Hs as [-> | ->]; auto. }
    destruct c as [e|v]; [apply Hcl; auto|].
    destruct (castp v) as [v'|]; [|apply Hcl; auto].
    unfold cr_satisfy. destruct st as [|g|]; [congruence| |]; apply Hcl; auto; discriminate.
  - apply IH; assumption.
  - apply IH; assumption.
Qed.

Lemma run_satisfy_once {L G} (q : prop) (f : pval q -> M L G) p l w :
  match run_satisfy q f p CrOpen l w with
  | (r, st, l', w') => once q f l w st r l' w'
  end.
Proof.
  revert w. induction p as [r|p v k IH|p c k IH|p k IH|p k IH]; intros w; cbn [run_satisfy].
  - rewrite <- (add_events_nil w) at 2. constructor. constructor.
  - destruct (castp v) as [v'|]; [|apply IH].
    unfold cr_satisfy, bind, log. rewrite add_event_events.
    destruct (f v' l (add_events [EvAnswer q v'] w)) as [[[g|e|] l1] w1] eqn:Ef.
    + destruct (run_satisfy_taken q f (k (Some ECbEarlyReturn)) (CrSatisfied g) l1 w1)
        as [r [st' [cs [E [Hc Hs]]]]]; [discriminate|].
      rewrite E. eapply once_ok with (cs1 := []); eauto. constructor.
    + destruct (run_satisfy_taken q f (k (Some e)) CrTaken l1 w1)
        as [r [st' [cs [E [Hc Hs]]]]]; [discriminate|].
      rewrite E. assert (st' = CrTaken) by tauto. subst st'.
      eapply once_err with (cs1 := []); eauto. constructor.
    + eapply once_panic with (cs1 := []); eauto. constructor.
  - destruct (prop_eq_dec p q) as [E|]; [|apply IH].
    assert (Hno : forall x,
      match run_satisfy q f (k x) CrOpen l (add_event (EvClosure p) w) with
      | (r, st, l', w') => once q f l w st r l' w' end).
    { clear E. intros x. specialize (IH x (add_event (EvClosure p) w)).
      destruct (run_satisfy q f (k x) CrOpen l (add_event (EvClosure p) w)) as [[[r st] l'] w'].
      rewrite add_event_events in IH.
      assert (Hc1 : forall cs, only_closures cs -> only_closures (EvClosure p :: cs))
        by (intros; constructor; auto).
      inversion IH; subst.
      - rewrite add_events_app. apply once_no. apply Hc1; assumption.
      - rewrite add_events_app in *. simpl app in *.
        eapply once_ok with (cs1 := EvClosure p :: cs1); simpl app; eauto.
      - rewrite add_events_app in *. simpl app in *.
        eapply once_err with (cs1 := EvClosure p :: cs1); simpl app; eauto.
      - rewrite add_events_app in *. simpl app in *.
        eapply once_panic with (cs1 := EvClosure p :: cs1); simpl app; eauto. }
    destruct c as [e|v]; [apply Hno|].
    destruct (castp v) as [v'|]; [|apply Hno].
    unfold cr_satisfy, bind, log. rewrite !add_event_events, !add_events_app. simpl app.
    assert (Hc : only_closures [EvClosure p]) by (repeat constructor).
    destruct (f v' l (add_events [EvClosure p; EvAnswer q v'] w)) as [[[g|e|] l1] w1] eqn:Ef.
    + destruct (run_satisfy_taken q f (k (Some ECbEarlyReturn)) (CrSatisfied g) l1 w1)
        as [r [st' [cs [E' [Hc' Hs]]]]]; [discriminate|].
      rewrite E'. eapply once_ok with (cs1 := [EvClosure p]); simpl app; eauto.
    + destruct (run_satisfy_taken q f (k (Some e)) CrTaken l1 w1)
        as [r [st' [cs [E' [Hc' Hs]]]]]; [discriminate|].
      rewrite E'. assert (st' = CrTaken) by tauto. subst st'.
      eapply once_err with (cs1 := [EvClosure p]); simpl app; eauto.
    + eapply once_panic with (cs1 := [EvClosure p]); simpl app; eauto.
  - apply IH.
  - apply IH.
Qed.

(** Outcomes of an optional request, for an arbitrary callback. *)
Inductive asked_for {L G} (q : prop) (c : ctx) (f : pval q -> M L G) (l : L) (w : world)
  : res serr (option G) -> L -> world -> Prop :=
| af_none cs r :
    only_closures cs -> (r = Ok None \/ exists e, r = Err e) ->
    asked_for q c f l w r l (add_events (EvRequest q c :: cs) w)
| af_ok v cs1 cs2 g r l1 w1 :
    only_closures cs1 -> only_closures cs2 ->
    f v l (add_events (EvRequest q c :: cs1 ++ [EvAnswer q v]) w) = (Ok g, l1, w1) ->
    (r = Ok (Some g) \/ r = Ok None \/ exists e, r = Err e) ->
    asked_for q c f l w r l1 (add_events cs2 w1)
| af_err v cs1 cs2 e r l1 w1 :
    only_closures cs1 -> only_closures cs2 ->
    f v l (add_events (EvRequest q c :: cs1 ++ [EvAnswer q v]) w) = (Err e, l1, w1) ->
    (r = Ok None \/ exists e', r = Err e') ->
    asked_for q c f l w r l1 (add_events cs2 w1)
| af_panic v cs1 l1 w1 :
    only_closures cs1 ->
    f v l (add_events (EvRequest q c :: cs1 ++ [EvAnswer q v]) w) = (Panic, l1, w1) ->
    asked_for q c f l w Panic l1 w1.

Lemma maybe_need_with_inv {L G} e q c (f : pval q -> M L G) l w r l' w' :
  maybe_need_with e q c f l w = (r, l', w') -> asked_for q c f l w r l' w'.
Proof.
  unfold maybe_need_with. rewrite add_event_events.
  pose proof (run_satisfy_once q f (e_cb e (w_trace w) (e_sd e) c (RSatisfy q)) l
                (add_events [EvRequest q c] w)) as H.
  destruct (run_satisfy _ _ _ _ _ _) as [[[r0 st] l0] w0].
  inversion H; subst; clear H.
  - rewrite add_events_app. intros E.
    assert ((r = Ok None \/ exists e, r = Err e) /\ l' = l0 /\
           w' = add_events (EvRequest q c :: cs) w) as [Hr [-> ->]].
    { destruct (mask_early r1) as [[]|]; inversion E; subst; simpl; split; eauto. }
    apply af_none; assumption.
  - rewrite add_events_app in *. simpl app in *. intros E.
    assert ((r = Ok (Some g) \/ r = Ok None \/ exists e, r = Err e) /\ l' = l0 /\
           w' = add_events cs2 w1) as [Hr [-> ->]].
    { match goal with H : _ \/ _ |- _ => destruct H as [Hst|Hst] end; subst st;
      destruct (mask_early r1) as [[]|]; inversion E; subst; split; eauto. }
    apply (af_ok q c f l w v cs1 cs2 g r l0 w1); assumption.
  - rewrite add_events_app in *. simpl app in *. intros E.
    assert ((r = Ok None \/ exists e, r = Err e) /\ l' = l0 /\
           w' = add_events cs2 w1) as [Hr [-> ->]].
    { destruct (mask_early r1) as [[]|]; inversion E; subst; split; eauto. }
    apply (af_err q c f l w v cs1 cs2 e0 r l0 w1); assumption.
  - rewrite add_events_app in *. simpl app in *. intros E. inversion E; subst.
    apply (af_panic q c f l w v cs1 l' w'); assumption.
Qed.

Lemma run_satisfy_bubbling {L G} (q : prop) (f : pval q -> M L G) p l w :
  bubbling p ->
  match answer q p with
  | inl r => exists cs, only_closures cs /\
      run_satisfy q f p CrOpen l w = (Ok r, CrOpen, l, add_events cs w)
  | inr v => exists cs, only_closures cs /\
      run_satisfy q f p CrOpen l w =
      match f v l (add_events (cs ++ [EvAnswer q v]) w) with
      | (Ok g, l1, w1) => (Ok (Some ECbEarlyReturn), CrSatisfied g, l1, w1)
      | (Err e, l1, w1) => (Ok (Some e), CrTaken, l1, w1)
      | (Panic, l1, w1) => (Panic, CrTaken, l1, w1)
      end
  end.
Proof.
  revert w. induction p as [r|p v k IH|p c k IH|p k IH|p k IH]; intros w Hb;
    cbn [bubbling answer run_satisfy] in *.
  - exists []. rewrite add_events_nil. split; [constructor|reflexivity].
  - destruct Hb as [Hk Hb]. destruct (castp v) as [v'|]; [|apply IH; assumption].
    exists []. split; [constructor|]. unfold cr_satisfy, bind, log. rewrite add_event_events.
    simpl app. destruct (f v' l (add_events [EvAnswer q v'] w)) as [[[g|e|] l1] w1];
      rewrite ?Hk; reflexivity.
  - destruct Hb as [Hk Hb]. unfold castp.
    destruct (prop_eq_dec p q) as [E|]; [|apply IH; assumption].
    destruct c as [e|v].
    + exists [EvClosure p]. split; [repeat constructor|]. rewrite Hk. reflexivity.
    + exists [EvClosure p]. split; [repeat constructor|].
      unfold cr_satisfy, bind, log. rewrite !add_event_events, add_events_app. simpl app.
      destruct (f _ l (add_events _ w)) as [[[g|e|] l1] w1]; rewrite ?Hk; reflexivity.
  - apply IH; auto.
  - apply IH; auto.
Qed.

Lemma maybe_need_with_bubbling {L G} e q c (f : pval q -> M L G) l w :
  bubbling (e_cb e (w_trace w) (e_sd e) c (RSatisfy q)) ->
  exists cs, only_closures cs /\
  maybe_need_with e q c f l w =
  match answer q (e_cb e (w_trace w) (e_sd e) c (RSatisfy q)) with
  | inl r => (polite_none r, l, add_events (EvRequest q c :: cs) w)
  | inr v =>
      match f v l (add_events (EvRequest q c :: cs ++ [EvAnswer q v]) w) with
      | (r, l1, w1) => (polite_result r, l1, w1)
      end
  end.
Proof.
  intros Hb. unfold maybe_need_with. rewrite add_event_events.
  pose proof (run_satisfy_bubbling q f _ l (add_events [EvRequest q c] w) Hb) as H.
  destruct (answer q _) as [r|v].
  - destruct H as [cs [Hc E]]. exists cs. split; [assumption|]. rewrite E, add_events_app.
    simpl app. destruct r as [[]|]; reflexivity.
  - destruct H as [cs [Hc E]]. exists cs. split; [assumption|]. rewrite E, add_events_app. clear E.
    simpl app. destruct (f v l _) as [[[g|[]|] l1] w1]; reflexivity.
Qed.

Lemma maybe_need_with_provides {L G} e q v c (f : pval q -> M L G) l w :
  provides e q v ->
  exists cs, only_closures cs /\
  maybe_need_with e q c f l w =
  match f v l (add_events (EvRequest q c :: cs ++ [EvAnswer q v]) w) with
  | (r, l1, w1) => (polite_result r, l1, w1)
  end.
Proof.
  intros H. destruct (H (w_trace w) c) as [Hb Ha].
  destruct (maybe_need_with_bubbling e q c f l w Hb) as [cs [Hc E]].
  rewrite Ha in E. eauto.
Qed.

Lemma maybe_need_with_withholds {L G} e q c (f : pval q -> M L G) l w :
  withholds e q ->
  exists cs, only_closures cs /\
  maybe_need_with e q c f l w = (Ok None, l, add_events (EvRequest q c :: cs) w).
Proof.
  intros H. destruct (H (w_trace w) c) as [Hb Ha].
  destruct (maybe_need_with_bubbling e q c f l w Hb) as [cs [Hc E]].
  exists cs; split; [assumption|]. destruct Ha as [Ha|Ha]; rewrite Ha in E; exact E.
Qed.

Lemma need_with_provides {L G} e q v c (f : pval q -> M L G) l w g l1 :
  provides e q v ->
  (forall cs, only_closures cs ->
     exists w1, f v l (add_events (EvRequest q c :: cs ++ [EvAnswer q v]) w) = (Ok g, l1, w1)) ->
  exists cs w1, only_closures cs /\
  f v l (add_events (EvRequest q c :: cs ++ [EvAnswer q v]) w) = (Ok g, l1, w1) /\
  need_with e q c f l w = (Ok g, l1, w1).
Proof.
  intros H Hf. destruct (maybe_need_with_provides e q v c f l w H) as [cs [Hc E]].
  destruct (Hf cs Hc) as [w1 E1]. exists cs, w1. split; [assumption|]. split; [assumption|].
  unfold need_with, bind. rewrite E, E1. reflexivity.
Qed.
