(** Lemmas for C79: exchanges in which the server sends no token of its own. *)
From Coq Require Import Lia NArith.
From Verif Require Import Bytes BytesFacts Types World CallbackSpec WorldFacts MonadFacts Gssapi Session
  Spec_Simple Spec_Gssapi Spec_GssPair Proof_Gssapi Proof_ScramRun Proof_GssPair.
Open Scope m_scope.

Theorem establish_single ec es sc ss service host t1 cset sset fc fs w1 :
  s_mech sc = XGssapiC GcInitial -> s_mech ss = XGssapiS GsInitial ->
  provides ec PGssService service -> provides ec PHostname host ->
  single ec es (service ++ lit "@" ++ host) t1 ->
  wants ec cset -> wants es sset ->
  e_gss_flags ec (client_one (service ++ lit "@" ++ host)) = Some fc -> strong_enough fc cset ->
  e_gss_flags es (server_one t1) = Some fs ->
  sl_is_empty (gss_mask fs sset) = false ->
  e_gss_wrap es (server_one t1) false (offer_msg (gss_mask fs sset)) = Some w1 ->
  exists sc1 ss1,
    step ec sc None [] = (Ok Running, t1, sc1) /\
    step es ss (Some t1) [] = (Ok Running, w1, ss1) /\
    s_mech sc1 = XGssapiC (GcLast (client_one (service ++ lit "@" ++ host)) cset) /\
    s_mech ss1 = XGssapiS (GsFinal (server_one t1 ++ [GWrap false (offer_msg (gss_mask fs sset))])
                             (gss_mask fs sset)).
Proof.
  intros Ec Es Ps Ph [Nm [Cc [Cs [Ht1 [S1 [I1 [S2 I2]]]]]]] Wc Ws Ef Hstrong Efs Hne Hw.
  set (name := service ++ lit "@" ++ host) in *.
  destruct (client_ran ec sc GcInitial None Running (GcLast (client_one name) cset) t1 Ec)
    as [sc1 [H1 M1]].
  { unfold gss_client_step. next GcInitial GcInitial (@nil ascii).
    { apply succeeds_pure. reflexivity. }
    intros w2 [evs1 D1]. next tt GcErrored (@nil ascii).
    { apply succeeds_pure. reflexivity. }
    intros w3 [evs2 D2]. cbv beta iota. next service GcErrored (@nil ascii).
    { apply need_some with (v := service); [exact Ps|reflexivity]. }
    intros w4 [evs3 D3]. cbv beta.
    next (tt, name) GcErrored (@nil ascii).
    { destruct (need_some ec PHostname empty_provider
        (fun hostname : bytes => t <- getl ;; setl (t ++ hostname)) host (service ++ lit "@") w4 tt name Ph)
        as [w' [evs [E D]]].
      { intros w. unfold name. unfold bind, getl, setl. rewrite <- app_assoc. reflexivity. }
      exists w', evs. split; [|exact D]. unfold locally. rewrite E. reflexivity. }
    intros w5 [evs4 D4]. cbv beta iota. next tt GcErrored (@nil ascii).
    { apply succeeds_pure. rewrite Nm, Cc. reflexivity. }
    intros w6 [evs5 D5]. cbv beta. unfold gss_client_pending.
    next (Some t1) GcErrored (@nil ascii).
    { apply succeeds_try. exact S1. }
    intros w7 [evs6 D6]. cbv beta zeta iota.
    refine (succeeds_bind _ _ _ _ tt GcErrored t1 0 _ _ [] 0 _ _ _ _ (eq_sym (app_nil_r _)) eq_refl).
    { destruct t1 as [|b t1]; [contradiction|]. apply succeeds_write.
      do 6 (eapply did_script; [eassumption|]). reflexivity. }
    intros w8 [evs7 D7]. cbv beta. cbn [app]. unfold client_one in *. rewrite I1. cbn [negb].
    destruct (wants_maybe ec empty_provider cset
      (gss_check_acceptable ec [GInit name; GStep None]) GcErrored w8 Wc) as [o [Eo Ho]].
    { intros w _. apply (check_passes _ _ _ fc); assumption. }
    next o GcErrored (@nil ascii); [exact Ho|].
    intros w9 [evs8 D8]. cbv beta. rewrite Eo.
    next tt (GcLast [GInit name; GStep None] cset) (@nil ascii).
    { apply succeeds_pure. reflexivity. }
    intros w10 _. apply succeeds_pure. reflexivity. }
  destruct (server_ran es ss GsInitial (Some t1) Running
    (GsFinal (server_one t1 ++ [GWrap false (offer_msg (gss_mask fs sset))]) (gss_mask fs sset)) w1 Es)
    as [ss1 [H2 M2]].
  { unfold gss_server_step. next GsInitial GsInitial (@nil ascii).
    { apply succeeds_pure. reflexivity. }
    intros w2 [evs1 D1]. next tt GsErrored (@nil ascii).
    { apply succeeds_pure. reflexivity. }
    intros w3 [evs2 D2]. cbv beta iota. rewrite Cs. unfold gss_server_pending.
    next (@None bytes) GsErrored (@nil ascii).
    { apply succeeds_try. exact S2. }
    intros w4 [evs3 D3]. cbv beta zeta iota. cbn [app]. unfold server_one in *. rewrite I2.
    destruct (wants_maybe es empty_provider sset (fun a : seclayer => ret a) GsErrored w4 Ws)
      as [o [Eo Ho]]; [reflexivity|].
    next o GsErrored (@nil ascii); [exact Ho|].
    intros w5 [evs4 D4]. cbv beta. next fs GsErrored (@nil ascii).
    { apply succeeds_try. exact Efs. }
    intros w6 [evs5 D5]. cbv beta zeta. rewrite Eo, Hne.
    next tt (GsInstalled [GAccept; GStep (Some t1)] (gss_mask fs sset)) (@nil ascii).
    { apply succeeds_pure. reflexivity. }
    intros w7 [evs6 D6]. cbv beta iota. next tt GsErrored (@nil ascii).
    { apply succeeds_pure. reflexivity. }
    intros w8 [evs7 D7]. unfold gss_server_installed. fold (offer_msg (gss_mask fs sset)). cbv zeta.
    next w1 GsErrored (@nil ascii).
    { apply succeeds_try. exact Hw. }
    intros w9 [evs8 D8]. cbv beta.
    refine (succeeds_bind _ _ _ _ tt _ w1 0 _ _ [] 0 _ _ _ _ (eq_sym (app_nil_r _)) eq_refl).
    { apply succeeds_write. do 8 (eapply did_script; [eassumption|]). reflexivity. }
    intros w10 [evs9 D9].
    next tt (GsFinal ([GAccept; GStep (Some t1)] ++ [GWrap false (offer_msg (gss_mask fs sset))])
               (gss_mask fs sset)) (@nil ascii); [apply succeeds_pure; reflexivity|].
    intros. apply succeeds_pure. reflexivity. }
  exists sc1, ss1. auto.
Qed.

Theorem single_exchange ec es sc ss service host t1 cset sset fc fs R l :
  s_mech sc = XGssapiC GcInitial -> s_mech ss = XGssapiS GsInitial ->
  provides ec PGssService service -> provides ec PHostname host ->
  single ec es (service ++ lit "@" ++ host) t1 ->
  linked ec es R -> R (client_one (service ++ lit "@" ++ host)) (server_one t1) ->
  wants ec cset -> wants es sset -> known_layers sset ->
  e_gss_flags ec (client_one (service ++ lit "@" ++ host)) = Some fc -> strong_enough fc cset ->
  e_gss_flags es (server_one t1) = Some fs ->
  agreed cset sset fs l ->
  exists sc1 w1 ss1 w2 sc2 ss2,
    step ec sc None [] = (Ok Running, t1, sc1) /\
    step es ss (Some t1) [] = (Ok Running, w1, ss1) /\
    step ec sc1 (Some w1) [] = (Ok (Finished true), w2, sc2) /\
    step es ss1 (Some w2) [] = (Ok (Finished false), [], ss2) /\
    uses_layer (s_mech sc2) l /\ uses_layer (s_mech ss2) l /\
    (l <> LayerNone -> paired R sc2 ss2).
Proof.
  intros Ec Es Ps Ph Mu Lk HR Wc Ws Kn Ef St Efs Ag.
  assert (Hne : sl_is_empty (gss_mask fs sset) = false).
  { destruct Ag as [Hc _]. exact (mask_empty _ _ _ _ Kn Hc). }
  destruct (proj2 (Lk _ _ false (offer_msg (gss_mask fs sset)) HR)) as [w1 [W1 [U1 R1]]].
  destruct (establish_single ec es sc ss service host t1 cset sset fc fs w1 Ec Es Ps Ph Mu Wc Ws Ef St
    Efs Hne W1) as [sc1 [ss1 [H1 [H2 [M1 N1]]]]].
  pose proof (answered ec es sc1 ss1 _ _ cset sset fs R w1 Lk U1 R1 M1 N1 Kn) as H.
  destruct (gss_choose (sl_and (gss_mask fs sset) cset)) as [[reply wrap]|].
  - destruct H as [l' [w2 [sc3 [ss3 [c' [s' [Ag' [R' [H5 [H6 [M3 N3]]]]]]]]]]].
    pose proof (agreed_unique _ _ _ _ _ Ag Ag') as <-.
    exists sc1, w1, ss1, w2, sc3, ss3.
    do 4 (split; [assumption|]). rewrite M3, N3.
    destruct l; cbn [choice_of snd]; (split; [constructor|]); (split; [constructor|]); intros Hl;
      [contradiction|..]; exists c', s'; eexists; (split; [exact R'|]);
      (split; [exact M3|exact N3]).
  - exfalso. destruct H as [Hno _]. destruct Ag as [Hc _]. exact (Hno l Hc).
Qed.

Theorem single_disagree ec es sc ss service host t1 cset sset fc fs R :
  s_mech sc = XGssapiC GcInitial -> s_mech ss = XGssapiS GsInitial ->
  provides ec PGssService service -> provides ec PHostname host ->
  single ec es (service ++ lit "@" ++ host) t1 ->
  linked ec es R -> R (client_one (service ++ lit "@" ++ host)) (server_one t1) ->
  wants ec cset -> wants es sset -> known_layers sset ->
  e_gss_flags ec (client_one (service ++ lit "@" ++ host)) = Some fc -> strong_enough fc cset ->
  e_gss_flags es (server_one t1) = Some fs ->
  (exists l, layer_in l sset /\ capable fs l) -> (forall l, ~ common cset sset fs l) ->
  exists sc1 w1 ss1 sc2,
    step ec sc None [] = (Ok Running, t1, sc1) /\
    step es ss (Some t1) [] = (Ok Running, w1, ss1) /\
    step ec sc1 (Some w1) [] = (Err (EMech MGssBadContext), [], sc2).
Proof.
  intros Ec Es Ps Ph Mu Lk HR Wc Ws Kn Ef St Efs [l [Hl Hcap]] Hno.
  assert (Hne : sl_is_empty (gss_mask fs sset) = false).
  { apply (mask_empty fs sset sset l Kn). repeat split; assumption. }
  destruct (proj2 (Lk _ _ false (offer_msg (gss_mask fs sset)) HR)) as [w1 [W1 [U1 R1]]].
  destruct (establish_single ec es sc ss service host t1 cset sset fc fs w1 Ec Es Ps Ph Mu Wc Ws Ef St
    Efs Hne W1) as [sc1 [ss1 [H1 [H2 [M1 N1]]]]].
  pose proof (answered ec es sc1 ss1 _ _ cset sset fs R w1 Lk U1 R1 M1 N1 Kn) as H.
  pose proof (choose_agreed cset sset fs) as Hch.
  destruct (gss_choose (sl_and (gss_mask fs sset) cset)) as [[reply wrap]|].
  - exfalso. destruct Hch as [l' [[Hc _] _]]. exact (Hno l' Hc).
  - destruct H as [_ [sc3 H5]]. exists sc1, w1, ss1, sc3. auto 10.
Qed.
