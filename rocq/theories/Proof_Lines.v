(** Exchanges over base64 lines (C120). *)
From Coq Require Import Lia.
From Verif Require Import Bytes BytesFacts Base64 Types World Session Registry Spec_Basic Proof_Basic Proof_Session Spec_Order Spec_Talk Proof_Talk Spec_Flow Spec_Lines.

Lemma step64_option e s i : step64 e s (option_map encode i)
  = match step e s i [] with (r, out, s') => (r, encode out, s') end.
Proof.
  destruct (step e s i []) as [[r out] s'] eqn:E. destruct i as [b|]; [apply step64_encoded|apply step64_none]; exact E.
Qed.

Theorem lines_same e l : forall s,
  lines64 e s (map (option_map encode) l)
    = map (fun y => (fst y, encode (snd y))) (dialogue e s (map (fun i => (i, [])) l)) /\
  after64 e s (map (option_map encode) l) = after e s (map (fun i => (i, [])) l).
Proof.
  induction l as [|i l IH]; intros s; [split; reflexivity|].
  cbn [lines64 after64 dialogue after map]. rewrite step64_option.
  destruct (step e s i []) as [[r out] s']. cbn [fst snd map]. destruct (IH s') as [-> ->]. split; reflexivity.
Qed.

Theorem lines_noise e l x l' x' : noisy l x l' x' -> forall s, x = lines64 e s l ->
  x' = lines64 e s l' /\ after64 e s l' = after64 e s l.
Proof.
  induction 1 as [|i y l x l' x' N IH|z l x l' x' H N IH]; intros s; cbn [lines64 after64].
  - intros _. split; reflexivity.
  - destruct (step64 e s i) as [[r out] s']. intros [= -> Hx]. cbn [snd].
    destruct (IH s' Hx) as [-> ->]. split; reflexivity.
  - intros Hx. rewrite (step64_reject e s z H). cbn [snd]. destruct (IH s Hx) as [-> ->]. split; reflexivity.
Qed.

Lemma enc_six_char s : line64 (enc_six s).
Proof.
  assert (H : forallb (fun s => existsb (beq (enc_six s)) (lit "ABCDEFGHIJKLMNOPQRSTUVWXYZabcdefghijklmnopqrstuvwxyz0123456789+/=")) all_six = true)
    by (vm_compute; reflexivity).
  rewrite forallb_forall in H. specialize (H s).
  assert (I : In s all_six).
  { destruct s as [[[[[a b] c] d] e] f]. destruct a, b, c, d, e, f; vm_compute; repeat (first [left; reflexivity|right]). }
  specialize (H I). rewrite existsb_exists in H. destruct H as [c [Hc E]]. apply beq_eq in E. rewrite E. exact Hc.
Qed.
Lemma pad_char : line64 pad.
Proof. unfold line64. vm_compute. repeat (first [left; reflexivity|right]). Qed.

Lemma encode_shape n : forall b, length b <= n ->
  Forall line64 (encode b) /\ exists k, length (encode b) = 4 * k /\ 3 * k < length b + 3 /\ length b <= 3 * k.
Proof.
  induction n as [|n IH]; intros b Hb.
  - destruct b; [|cbn in Hb; lia]. split; [constructor|]. exists 0. cbn. lia.
  - destruct b as [|x [|y [|z r]]].
    + split; [constructor|]. exists 0. cbn. lia.
    + split; [|exists 1; split; [destruct x; reflexivity|cbn; lia]].
      destruct x. cbn [encode enc1]. repeat (apply Forall_cons; [first [apply enc_six_char|apply pad_char]|]). constructor.
    + split; [|exists 1; split; [destruct x, y; reflexivity|cbn; lia]].
      destruct x, y. cbn [encode enc2]. repeat (apply Forall_cons; [first [apply enc_six_char|apply pad_char]|]). constructor.
    + cbn [length] in Hb. destruct (IH r) as (F & k & E & K1 & K2); [lia|]. cbn [encode]. split.
      * apply Forall_app. split; [|exact F]. destruct x, y, z. cbn [enc3].
        repeat (apply Forall_cons; [apply enc_six_char|]). constructor.
      * exists (S k). rewrite app_length, E. assert (length (enc3 x y z) = 4) as -> by (destruct x, y, z; reflexivity).
        cbn [length]. lia.
Qed.

Theorem lines_shape e s i r out s' : step64 e s i = (r, out, s') ->
  Forall line64 out /\ out <> lit "*" /\ out <> lit "=" /\ exists k, length out = 4 * k.
Proof.
  assert (G : forall b, Forall line64 (encode b) /\ encode b <> lit "*" /\ encode b <> lit "=" /\ exists k, length (encode b) = 4 * k).
  { intros b. destruct (encode_shape (length b) b (le_n _)) as (F & k & E & _). split; [exact F|].
    split; [intros H; rewrite H in E; cbn in E; lia|]. split; [intros H; rewrite H in E; cbn in E; lia|]. exists k. exact E. }
  unfold step64. destruct i as [x|].
  - destruct (decode x) as [b|]; [|intros [= <- <- <-]; exact (G [])].
    destruct (step e s (Some b) []) as [[r0 o] s0]. intros [= <- <- <-]. apply G.
  - destruct (step e s None []) as [[r0 o] s0]. intros [= <- <- <-]. apply G.
Qed.

Lemma step64_running e s i out s' : step64 e s (option_map encode i) = (Ok Running, out, s') ->
  exists o, out = encode o /\ step e s i [] = (Ok Running, o, s').
Proof.
  rewrite step64_option. destruct (step e s i []) as [[r o] s0]. intros [= -> <- ->]. exists o. split; reflexivity.
Qed.
Theorem lines_talk ec es m c0 s0 n sd line c s : talk64 ec es m c0 s0 n sd line c s ->
  exists i, line = option_map encode i /\ talk ec es m c0 s0 n sd i c s.
Proof.
  induction 1 as [|n line c s out c' T (i & -> & K) E|n line c s out s' T (i & -> & K) E].
  - exists None. split; [reflexivity|constructor].
  - apply step64_running in E. destruct E as (o & -> & E). exists (Some o). split; [reflexivity|].
    exact (talk_client _ _ _ _ _ _ _ _ _ _ _ _ K E).
  - apply step64_running in E. destruct E as (o & -> & E). exists (Some o). split; [reflexivity|].
    exact (talk_server _ _ _ _ _ _ _ _ _ _ _ _ K E).
Qed.

Lemma moves64_option ec es sd c s i : moves64 ec es sd c s (option_map encode i)
  = match moves ec es sd c s i [] with (r, out, x) => (r, encode out, x) end.
Proof. destruct sd; apply step64_option. Qed.
Lemma replies64_option ec es sd c s i : replies64 ec es sd c s (option_map encode i)
  = match replies ec es sd c s i [] with (r, out, x) => (r, encode out, x) end.
Proof. destruct sd; apply step64_option. Qed.

Theorem lines_bounded ec es reg m c0 s0 n sd i c s : m <> DGssapi -> begun reg SClient m c0 -> begun reg SServer m s0 ->
  talk64 ec es m c0 s0 n sd i c s -> n <= 3.
Proof.
  intros G B1 B2 T. apply lines_talk in T. destruct T as (j & _ & T). exact (talk_bounded _ _ _ _ _ _ _ _ _ _ _ G B1 B2 T).
Qed.
Theorem lines_last ec es reg m c0 s0 n sd i c s out x st out2 y : m <> DGssapi -> begun reg SClient m c0 -> begun reg SServer m s0 ->
  talk64 ec es m c0 s0 n sd i c s ->
  moves64 ec es sd c s i = (Ok (Finished true), out, x) ->
  replies64 ec es sd c s (Some out) = (Ok st, out2, y) -> st = Finished false.
Proof.
  intros G B1 B2 T. apply lines_talk in T. destruct T as (j & -> & T). rewrite moves64_option.
  destruct (moves ec es sd c s j []) as [[r o] x0] eqn:E. intros [= -> <- ->].
  change (Some (encode o)) with (option_map encode (Some o)). rewrite replies64_option.
  destruct (replies ec es sd c s (Some o) []) as [[r2 o2] y0] eqn:E2. intros [= -> _ _].
  exact (talk_last_message _ _ _ _ _ _ _ _ _ _ _ _ _ _ _ _ _ _ G B1 B2 T E E2).
Qed.
Theorem lines_silent ec es reg m c0 s0 n sd i c s out x : m <> DGssapi -> begun reg SClient m c0 -> begun reg SServer m s0 ->
  talk64 ec es m c0 s0 n sd i c s ->
  moves64 ec es sd c s i = (Ok (Finished false), out, x) ->
  out = [] /\ exists y, replies64 ec es sd c s None = (Ok (Finished false), [], y).
Proof.
  intros G B1 B2 T. apply lines_talk in T. destruct T as (j & -> & T). rewrite moves64_option.
  destruct (moves ec es sd c s j []) as [[r o] x0] eqn:E. intros [= -> <- ->].
  assert (O : o = []) by (destruct sd; exact (no_message_no_bytes _ _ _ _ _ _ E)).
  split; [rewrite O; reflexivity|].
  destruct (talk_silent_end _ _ _ _ _ _ _ _ _ _ _ _ _ _ [] G B1 B2 T E) as [y Y]. exists y.
  change (@None bytes) with (option_map encode (@None bytes)). rewrite replies64_option, Y. reflexivity.
Qed.
