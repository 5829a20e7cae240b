(** C79. *)
From Coq Require Import List NArith.
From Verif Require Import Bytes Types World CallbackSpec Gssapi Session Spec_Simple Spec_Gssapi
  Spec_GssPair ExampleEnv ExampleScram Proof_GssPair.
Import ListNotations.

(** C79: client and server end with the strongest layer both accept and the context provides. *)
Theorem C79_exchange : forall ec es sc ss service host t1 t2 cset sset fc fs R l,
  s_mech sc = XGssapiC GcInitial -> s_mech ss = XGssapiS GsInitial ->
  provides ec PGssService service -> provides ec PHostname host ->
  mutual ec es (service ++ lit "@" ++ host) t1 t2 ->
  linked ec es R -> R (client_two (service ++ lit "@" ++ host) t2) (server_one t1) ->
  wants ec cset -> wants es sset -> known_layers sset ->
  e_gss_flags ec (client_two (service ++ lit "@" ++ host) t2) = Some fc -> strong_enough fc cset ->
  e_gss_flags es (server_one t1) = Some fs ->
  agreed cset sset fs l ->
  exists sc1 ss1 sc2 w1 ss2 w2 sc3 ss3,
    step ec sc None [] = (Ok Running, t1, sc1) /\
    step es ss (Some t1) [] = (Ok Running, t2, ss1) /\
    step ec sc1 (Some t2) [] = (Ok Running, [], sc2) /\
    step es ss1 (Some []) [] = (Ok Running, w1, ss2) /\
    step ec sc2 (Some w1) [] = (Ok (Finished true), w2, sc3) /\
    step es ss2 (Some w2) [] = (Ok (Finished false), [], ss3) /\
    uses_layer (s_mech sc3) l /\ uses_layer (s_mech ss3) l /\
    (l <> LayerNone -> paired R sc3 ss3).
Proof. exact gss_exchange. Qed.
Print Assumptions C79_exchange.

(** C79: without a common layer the client refuses the offer. *)
Theorem C79_disagree : forall ec es sc ss service host t1 t2 cset sset fc fs R,
  s_mech sc = XGssapiC GcInitial -> s_mech ss = XGssapiS GsInitial ->
  provides ec PGssService service -> provides ec PHostname host ->
  mutual ec es (service ++ lit "@" ++ host) t1 t2 ->
  linked ec es R -> R (client_two (service ++ lit "@" ++ host) t2) (server_one t1) ->
  wants ec cset -> wants es sset -> known_layers sset ->
  e_gss_flags ec (client_two (service ++ lit "@" ++ host) t2) = Some fc -> strong_enough fc cset ->
  e_gss_flags es (server_one t1) = Some fs ->
  (exists l, layer_in l sset /\ capable fs l) -> (forall l, ~ common cset sset fs l) ->
  exists sc1 ss1 sc2 w1 ss2 sc3,
    step ec sc None [] = (Ok Running, t1, sc1) /\
    step es ss (Some t1) [] = (Ok Running, t2, ss1) /\
    step ec sc1 (Some t2) [] = (Ok Running, [], sc2) /\
    step es ss1 (Some []) [] = (Ok Running, w1, ss2) /\
    step ec sc2 (Some w1) [] = (Err (EMech MGssBadContext), [], sc3).
Proof. exact gss_disagree. Qed.
Print Assumptions C79_disagree.

(** C79: over the negotiated layer any data arrives unchanged and in order, in both directions. *)
Theorem C79_data : forall ec es R,
  linked ec es R ->
  forall sc ss, paired R sc ss -> forall ds,
  exists sc' ss', traffic ec es sc ss ds ds sc' ss' /\ paired R sc' ss'.
Proof. exact data_arrives. Qed.
Print Assumptions C79_data.

(** Libraries that exchange one token each and mark what they wrap. The first application
    accepts [acc]; the context provides [flags]. *)
Definition ex_pair (acc : byte) (flags : gflags) : env :=
  mk_env (mk_sdata (lit "GSSAPI") SClient)
    (fun _ _ _ r => ex_cb [mk_entry PGssService (lit "imap"); mk_entry PHostname (lit "host");
                           mk_entry PGssSecurityLayer acc])
    (fun _ _ _ => VRet None) 0 no_chan (fun _ => 0%N) ex_hash ex_hmac ex_pbkdf2 (fun x => Some x)
    (fun o => ob_status o) (fun x => None) (fun _ => true) true
    (fun c i => match c, i with
                | [GInit _], None => Some (Some (lit "t1"))
                | [GAccept], Some _ => Some (Some (lit "t2"))
                | _, _ => Some None
                end)
    (fun c => match c with
              | [GInit _; GStep _] => false
              | [GInit _; GStep _; GStep _] | [GAccept; GStep _] => true
              | _ => false
              end)
    (fun _ => Some flags)
    (fun c conf m => Some ((if conf then "C"%char else "I"%char) :: m))
    (fun c m => match m with _ :: m => Some m | [] => None end).
Definition ex_integ : gflags := mk_gflags true false true.
Definition ex_any (c s : gctx) : Prop := True.

Lemma ex_pair_provides acc flags :
  provides (ex_pair acc flags) PGssService (lit "imap") /\
  provides (ex_pair acc flags) PHostname (lit "host") /\
  provides (ex_pair acc flags) PGssSecurityLayer acc.
Proof.
  split; [|split]; intros tr c;
    (split; [repeat (split; [intros x; reflexivity|]); exact I|reflexivity]).
Qed.

Example C79_example :
  let ec := ex_pair (chr 7) ex_integ in let es := ex_pair (chr 6) ex_integ in
  let sc := ex_at (XGssapiC GcInitial) in let ss := ex_at (XGssapiS GsInitial) in
  provides ec PGssService (lit "imap") /\ provides ec PHostname (lit "host") /\
  mutual ec es (lit "imap@host") (lit "t1") (lit "t2") /\ linked ec es ex_any /\
  wants ec (chr 7) /\ wants es (chr 6) /\ known_layers (chr 6) /\
  strong_enough ex_integ (chr 7) /\ agreed (chr 7) (chr 6) ex_integ LayerIntegrity /\
  (forall l, ~ common (chr 1) (chr 6) ex_integ l) /\
  let ssa := ses_of (step es ss (Some (lit "t1")) []) in
  let sca := ses_of (step ec (ses_of (step ec sc None [])) (Some (lit "t2")) []) in
  out_of (step es ssa (Some []) []) = lit "I" ++ [chr 2; chr 255; chr 255; chr 255] /\
  fst (step ec sca (Some (lit "I" ++ [chr 2; chr 255; chr 255; chr 255])) [])
    = (Ok (Finished true), lit "I" ++ [chr 2; chr 255; chr 255; chr 255]).
Proof.
  cbv zeta.
  split; [apply ex_pair_provides|].
  split; [apply ex_pair_provides|].
  split.
  { unfold mutual, client_two, server_one. do 8 (split; [first [reflexivity|discriminate]|]).
    split; [left; reflexivity|reflexivity]. }
  split.
  { intros c s conf m _. split; eexists; (split; [reflexivity|]); (split; [reflexivity|exact I]). }
  split; [left; apply ex_pair_provides|].
  split; [left; apply ex_pair_provides|].
  split.
  { intros n. destruct n as [|[[[]|[]|]|[[]|[]|]|]]; cbn; intros E; try discriminate E; discriminate. }
  split; [left; reflexivity|].
  split.
  { split; [repeat split|]. intros l'. destruct l'; intros [A [B C]]; try discriminate.
    destruct C; discriminate. }
  split; [intros l [A [B C]]; destruct l; discriminate|].
  split; vm_compute; reflexivity.
Qed.
