(** Proofs for C84. *)
From Coq Require Import Lia.
From Verif Require Import Bytes Types World CallbackSpec WorldFacts Gssapi Session Spec_Gssapi Spec_Size.
Open Scope m_scope.

Section Two.
Context (e : env) (c : gctx) (t1 t2 : bytes) (Hl : same_library e c t1 t2).

Lemma lib_wrap calls conf m : e_gss_wrap e (c ++ GUnwrap t1 :: calls) conf m = e_gss_wrap e (c ++ GUnwrap t2 :: calls) conf m.
Proof. apply Hl. Qed.
Lemma lib_unwrap calls m : e_gss_unwrap e (c ++ GUnwrap t1 :: calls) m = e_gss_unwrap e (c ++ GUnwrap t2 :: calls) m.
Proof. apply Hl. Qed.

(** The same state, except for the token received. *)
Inductive twins : mech -> mech -> Prop :=
| tw_same m : twins m m
| tw_client calls conf :
    twins (XGssapiC (GcCompleted (Some (c ++ GUnwrap t1 :: calls, conf))))
          (XGssapiC (GcCompleted (Some (c ++ GUnwrap t2 :: calls, conf))))
| tw_server calls conf :
    twins (XGssapiS (GsDone (Some (c ++ GUnwrap t1 :: calls, conf))))
          (XGssapiS (GsDone (Some (c ++ GUnwrap t2 :: calls, conf)))).
Definition twin_sessions (s s' : session) : Prop :=
  twins (s_mech s) (s_mech s') /\ s_trace s = s_trace s' /\ s_rng s = s_rng s' /\ s_val s = s_val s'.

Lemma wrap_data_twins {L} calls conf d (l : L) :
  gss_wrap_data e (c ++ GUnwrap t1 :: calls) conf d l = gss_wrap_data e (c ++ GUnwrap t2 :: calls) conf d l.
Proof. unfold gss_wrap_data. rewrite lib_wrap. reflexivity. Qed.
Lemma unwrap_data_twins {L} calls d (l : L) :
  gss_unwrap_data e (c ++ GUnwrap t1 :: calls) d l = gss_unwrap_data e (c ++ GUnwrap t2 :: calls) d l.
Proof. unfold gss_unwrap_data. rewrite lib_unwrap. reflexivity. Qed.
End Two.

Lemma write_all_local {L L'} d (l : L) (l' : L') w :
  match write_all d l w, write_all d l' w with
  | (r, k, v), (r', k', v') => r = r' /\ k = l /\ k' = l' /\ v = v'
  end.
Proof. unfold write_all. destruct (write_all_fuel _ _ _) as [r v]. auto. Qed.
Lemma wrap_data_local {L L'} e c conf d (l : L) (l' : L') w :
  match gss_wrap_data e c conf d l w, gss_wrap_data e c conf d l' w with
  | (r, k, v), (r', k', v') => r = r' /\ k = l /\ k' = l' /\ v = v'
  end.
Proof.
  unfold gss_wrap_data, gss_try, bind. destruct (e_gss_wrap e c conf d) as [t|]; [|cbn; auto].
  unfold ret at 1 3. pose proof (write_all_local t l l' w) as H.
  destruct (write_all t l w) as [[r k] v], (write_all t l' w) as [[r' k'] v'].
  destruct H as (<- & -> & -> & <-). destruct r; cbn; auto.
Qed.
Lemma unwrap_data_local {L L'} e c d (l : L) (l' : L') w :
  match gss_unwrap_data e c d l w, gss_unwrap_data e c d l' w with
  | (r, k, v), (r', k', v') => r = r' /\ k = l /\ k' = l' /\ v = v'
  end.
Proof.
  unfold gss_unwrap_data, gss_try, bind. destruct (e_gss_unwrap e c d) as [t|]; [|cbn; auto].
  unfold ret at 1 3. pose proof (write_all_local t l l' w) as H.
  destruct (write_all t l w) as [[r k] v], (write_all t l' w) as [[r' k'] v'].
  destruct H as (<- & -> & -> & <-). destruct r; cbn; auto.
Qed.

Definition fresh_world (s : session) (script : list wresp) : world :=
  mk_world [] script (s_trace s) (s_rng s) (s_val s).
Definition ended {A} (x : res serr A * unit * world) (m : mech) : res serr A * bytes * session :=
  match x with (r, _, w) => (r, w_out w, mk_session m (w_trace w) (w_rng w) (w_val w)) end.

Lemma encode_client e s c conf d script : s_mech s = XGssapiC (GcCompleted (Some (c, conf))) ->
  session_encode e s d script = ended (gss_wrap_data e c conf d tt (fresh_world s script))
    (XGssapiC (GcCompleted (Some (c ++ [GWrap conf d], conf)))).
Proof.
  intros E. unfold session_encode, run. rewrite E. fold (fresh_world s script).
  unfold mech_encode, bind, getl, on, gss_client_encode, bind, getl, setl.
  pose proof (wrap_data_local e c conf d (GcCompleted (Some (c ++ [GWrap conf d], conf))) tt (fresh_world s script)) as K.
  destruct (gss_wrap_data e c conf d (GcCompleted _) _) as [[r k] v], (gss_wrap_data e c conf d tt _) as [[r' k'] v'].
  destruct K as (<- & -> & _ & <-). reflexivity.
Qed.
Lemma encode_server e s c conf d script : s_mech s = XGssapiS (GsDone (Some (c, conf))) ->
  session_encode e s d script = ended (gss_wrap_data e c conf d tt (fresh_world s script))
    (XGssapiS (GsDone (Some (c ++ [GWrap conf d], conf)))).
Proof.
  intros E. unfold session_encode, run. rewrite E. fold (fresh_world s script).
  unfold mech_encode, bind, getl, on, gss_server_encode, bind, getl, setl.
  pose proof (wrap_data_local e c conf d (GsDone (Some (c ++ [GWrap conf d], conf))) tt (fresh_world s script)) as K.
  destruct (gss_wrap_data e c conf d (GsDone _) _) as [[r k] v], (gss_wrap_data e c conf d tt _) as [[r' k'] v'].
  destruct K as (<- & -> & _ & <-). reflexivity.
Qed.
Lemma decode_client e s c conf d script : s_mech s = XGssapiC (GcCompleted (Some (c, conf))) ->
  session_decode e s d script = ended (gss_unwrap_data e c d tt (fresh_world s script))
    (XGssapiC (GcCompleted (Some (c ++ [GUnwrap d], conf)))).
Proof.
  intros E. unfold session_decode, run. rewrite E. fold (fresh_world s script).
  unfold mech_decode, bind, getl, on, gss_client_decode, bind, getl, setl.
  pose proof (unwrap_data_local e c d (GcCompleted (Some (c ++ [GUnwrap d], conf))) tt (fresh_world s script)) as K.
  destruct (gss_unwrap_data e c d (GcCompleted _) _) as [[r k] v], (gss_unwrap_data e c d tt _) as [[r' k'] v'].
  destruct K as (<- & -> & _ & <-). reflexivity.
Qed.
Lemma decode_server e s c conf d script : s_mech s = XGssapiS (GsDone (Some (c, conf))) ->
  session_decode e s d script = ended (gss_unwrap_data e c d tt (fresh_world s script))
    (XGssapiS (GsDone (Some (c ++ [GUnwrap d], conf)))).
Proof.
  intros E. unfold session_decode, run. rewrite E. fold (fresh_world s script).
  unfold mech_decode, bind, getl, on, gss_server_decode, bind, getl, setl.
  pose proof (unwrap_data_local e c d (GsDone (Some (c ++ [GUnwrap d], conf))) tt (fresh_world s script)) as K.
  destruct (gss_unwrap_data e c d (GsDone _) _) as [[r k] v], (gss_unwrap_data e c d tt _) as [[r' k'] v'].
  destruct K as (<- & -> & _ & <-). reflexivity.
Qed.

Section Run.
Context (e : env) (c : gctx) (t1 t2 : bytes) (Hl : same_library e c t1 t2).
Let twin := twin_sessions c t1 t2.
Definition alike {A} (x y : res serr A * bytes * session) : Prop :=
  match x, y with (r, o, s), (r', o', s') => r = r' /\ o = o' /\ twin s s' end.

Lemma ended_alike {A} (x : res serr A * unit * world) m m' : twins c t1 t2 m m' -> alike (ended x m) (ended x m').
Proof. intros T. destruct x as [[r k] w]. repeat split. exact T. Qed.
Lemma twin_world s s' script : twin s s' -> fresh_world s script = fresh_world s' script.
Proof. intros (_ & Ht & Hg & Hv). unfold fresh_world. rewrite Ht, Hg, Hv. reflexivity. Qed.

Lemma encode_twins s s' d script : twin s s' -> alike (session_encode e s d script) (session_encode e s' d script).
Proof.
  intros H. pose proof (twin_world s s' script H) as Hw. destruct H as (T & Ht & Hg & Hv).
  inversion T as [m E E'|calls conf E E'|calls conf E E'].
  - unfold session_encode, run. fold (fresh_world s script). fold (fresh_world s' script). rewrite Hw, <- E', <- E.
    destruct (mech_encode e d m _) as [[r k] w]. repeat split. apply tw_same.
  - symmetry in E, E'. rewrite (encode_client _ _ _ _ _ _ E), (encode_client _ _ _ _ _ _ E'), Hw.
    rewrite (wrap_data_twins _ _ _ _ Hl). apply ended_alike. rewrite <- !app_assoc. apply tw_client.
  - symmetry in E, E'. rewrite (encode_server _ _ _ _ _ _ E), (encode_server _ _ _ _ _ _ E'), Hw.
    rewrite (wrap_data_twins _ _ _ _ Hl). apply ended_alike. rewrite <- !app_assoc. apply tw_server.
Qed.
Lemma decode_twins s s' d script : twin s s' -> alike (session_decode e s d script) (session_decode e s' d script).
Proof.
  intros H. pose proof (twin_world s s' script H) as Hw. destruct H as (T & Ht & Hg & Hv).
  inversion T as [m E E'|calls conf E E'|calls conf E E'].
  - unfold session_decode, run. fold (fresh_world s script). fold (fresh_world s' script). rewrite Hw, <- E', <- E.
    destruct (mech_decode e d m _) as [[r k] w]. repeat split. apply tw_same.
  - symmetry in E, E'. rewrite (decode_client _ _ _ _ _ _ E), (decode_client _ _ _ _ _ _ E'), Hw.
    rewrite (unwrap_data_twins _ _ _ _ Hl). apply ended_alike. rewrite <- !app_assoc. apply tw_client.
  - symmetry in E, E'. rewrite (decode_server _ _ _ _ _ _ E), (decode_server _ _ _ _ _ _ E'), Hw.
    rewrite (unwrap_data_twins _ _ _ _ Hl). apply ended_alike. rewrite <- !app_assoc. apply tw_server.
Qed.

Lemma transfers_twins l : forall s s', twin s s' -> transfers e s l = transfers e s' l.
Proof.
  induction l as [|[[b d] script] l IH]; intros s s' T; [reflexivity|]. cbn [transfers]. destruct b.
  - pose proof (encode_twins s s' d script T) as A.
    destruct (session_encode e s d script) as [[r o] s1], (session_encode e s' d script) as [[r' o'] s1'].
    destruct A as (<- & <- & T'). f_equal. apply IH. exact T'.
  - pose proof (decode_twins s s' d script T) as A.
    destruct (session_decode e s d script) as [[r o] s1], (session_decode e s' d script) as [[r' o'] s1'].
    destruct A as (<- & <- & T'). f_equal. apply IH. exact T'.
Qed.

Lemma last_twins s b r1 r2 script : awaits_size s c ->
  e_gss_unwrap e c t1 = Some (b :: r1) -> e_gss_unwrap e c t2 = Some (b :: r2) -> length r1 = 3 -> length r2 = 3 ->
  alike (step e s (Some t1) script) (step e s (Some t2) script).
Proof.
  intros [set [E|E]] U1 U2 L1 L2.
  all: destruct r1 as [|x1 [|x2 [|x3 [|]]]]; try discriminate L1.
  all: destruct r2 as [|y1 [|y2 [|y3 [|]]]]; try discriminate L2.
  all: unfold step, run; rewrite E; fold (fresh_world s script).
  - unfold mech_step, bind, getl, on, gss_client_step, bind, getl, setl, gss_try, gss_err, fail. rewrite U1, U2. unfold ret.
    cbv beta iota.
    destruct (from_bits b) as [sup|]; [|repeat split; apply tw_same]. cbv beta iota.
    destruct (gss_choose (sl_and sup set)) as [[resp wrap]|]; [|repeat split; apply tw_same]. cbv beta iota.
    rewrite (proj2 (Hl [] resp) false).
    destruct (e_gss_wrap e (c ++ [GUnwrap t2]) false resp) as [t|]; [|repeat split; apply tw_same]. cbv beta iota.
    unfold write_all. destruct (write_all_fuel _ _ _) as [[u|x|] v]; try (repeat split; apply tw_same).
    repeat split. destruct wrap as [conf|]; [|apply tw_same]. rewrite <- !app_assoc. apply tw_client.
  - unfold mech_step, bind, getl, on, gss_server_step, bind, getl, setl, gss_try, gss_err, fail. rewrite U1, U2. unfold ret.
    cbv beta iota.
    destruct (from_bits b) as [sel|]; [|repeat split; apply tw_same]. cbv beta iota.
    destruct (negb (sl_intersects sel set)); [repeat split; apply tw_same|].
    repeat split. destruct (has_conf sel); [apply tw_server|]. destruct (has_integ sel); [apply tw_server|apply tw_same].
Qed.
End Run.

Theorem size_ignored e c t1 t2 s b r1 r2 script l :
  same_library e c t1 t2 -> awaits_size s c ->
  e_gss_unwrap e c t1 = Some (b :: r1) -> e_gss_unwrap e c t2 = Some (b :: r2) -> length r1 = 3 -> length r2 = 3 ->
  fst (step e s (Some t1) script) = fst (step e s (Some t2) script) /\
  transfers e (snd (step e s (Some t1) script)) l = transfers e (snd (step e s (Some t2) script)) l.
Proof.
  intros Hl A U1 U2 L1 L2. pose proof (last_twins e c t1 t2 Hl s b r1 r2 script A U1 U2 L1 L2) as H.
  destruct (step e s (Some t1) script) as [[x o] s1], (step e s (Some t2) script) as [[x' o'] s1'].
  destruct H as (<- & <- & T). split; [reflexivity|]. exact (transfers_twins e c t1 t2 Hl l _ _ T).
Qed.
