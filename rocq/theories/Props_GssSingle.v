(** C108. *)
From Coq Require Import List NArith.
From Verif Require Import Bytes Types World CallbackSpec Gssapi Session Spec_Simple Spec_Gssapi
  Spec_GssPair ExampleEnv ExampleScram Proof_GssPair Proof_GssSingle Props_GssPair.
Import ListNotations.

(** C108: when the client's one token establishes both contexts, the server answers it with its
    offer, and both end with the strongest layer both accept and the context provides. *)
Theorem C108_exchange : forall ec es sc ss service host t1 cset sset fc fs R l,
  s_mech sc = XGssapiC GcInitial -> s_mech ss = XGssapiS GsInitial ->
  provides ec PGssService service -> provides ec PHostname host ->
  single ec es (service ++ lit "@" ++ host) t1 ->
  linked ec es R -> R (client_one (service ++ lit "@" ++ host)) (server_one t1) ->
  wants ec cset -> wants es sset -> known_layers sset ->
  e_gss_flags ec (client_one (service ++ lit "@" ++ host)) = Some fc -> strong_enough fc cset ->
  e_gss_flags es (server_one t1) = Some fs ->
  agreed cset sset fs l ->
  exists sc1 w1 ss1 w2 sc2 ss2,
    step ec sc None [] = (Ok Running, t1, sc1) /\
    step es ss (Some t1) [] = (Ok Running, w1, ss1) /\
    step ec sc1 (Some w1) [] = (Ok (Finished true), w2, sc2) /\
    step es ss1 (Some w2) [] = (Ok (Finished false), [], ss2) /\
    uses_layer (s_mech sc2) l /\ uses_layer (s_mech ss2) l /\
    (l <> LayerNone -> paired R sc2 ss2).
Proof. exact single_exchange. Qed.
Print Assumptions C108_exchange.

(** C108: without a common layer the client refuses the offer. *)
Theorem C108_disagree : forall ec es sc ss service host t1 cset sset fc fs R,
  s_mech sc = XGssapiC GcInitial -> s_mech ss = XGssapiS GsInitial ->
  provides ec PGssService service -> provides ec PHostname host ->
  single ec es (service ++ lit "@" ++ host) t1 ->
  linked ec es R -> R (client_one (service ++ lit "@" ++ host)) (server_one t1) ->
  wants ec cset -> wants es sset -> known_layers sset ->
  e_gss_flags ec (client_one (service ++ lit "@" ++ host)) = Some fc -> strong_enough fc cset ->
  e_gss_flags es (server_one t1) = Some fs ->
  (exists l, layer_in l sset /\ capable fs l) -> (forall l, ~ common cset sset fs l) ->
  exists sc1 w1 ss1 sc2,
    step ec sc None [] = (Ok Running, t1, sc1) /\
    step es ss (Some t1) [] = (Ok Running, w1, ss1) /\
    step ec sc1 (Some w1) [] = (Err (EMech MGssBadContext), [], sc2).
Proof. exact single_disagree. Qed.
Print Assumptions C108_disagree.

(** Libraries that need one token from the client. *)
Definition ex_single (acc : byte) (flags : gflags) : env :=
  mk_env (mk_sdata (lit "GSSAPI") SClient)
    (fun _ _ _ r => ex_cb [mk_entry PGssService (lit "imap"); mk_entry PHostname (lit "host");
                           mk_entry PGssSecurityLayer acc])
    (fun _ _ _ => VRet None) 0 no_chan (fun _ => 0%N) ex_hash ex_hmac ex_pbkdf2 (fun x => Some x)
    (fun o => ob_status o) (fun x => None) (fun _ => true) true
    (fun c i => match c, i with
                | [GInit _], None => Some (Some (lit "t1"))
                | _, _ => Some None
                end)
    (fun c => match c with
              | [GInit _; GStep _] | [GAccept; GStep _] => true
              | _ => false
              end)
    (fun _ => Some flags)
    (fun c conf m => Some ((if conf then "C"%char else "I"%char) :: m))
    (fun c m => match m with _ :: m => Some m | [] => None end).

Lemma ex_single_provides acc flags :
  provides (ex_single acc flags) PGssService (lit "imap") /\
  provides (ex_single acc flags) PHostname (lit "host") /\
  provides (ex_single acc flags) PGssSecurityLayer acc.
Proof.
  split; [|split]; intros tr c;
    (split; [repeat (split; [intros x; reflexivity|]); exact I|reflexivity]).
Qed.

(** Without mutual authentication the server offers integrity at most, although its
    application accepts confidentiality and the context could provide it. *)
Definition ex_alone : gflags := mk_gflags false true true.

Example C108_example :
  let ec := ex_single (chr 7) ex_alone in let es := ex_single (chr 6) ex_alone in
  let sc := ex_at (XGssapiC GcInitial) in let ss := ex_at (XGssapiS GsInitial) in
  provides ec PGssService (lit "imap") /\ provides ec PHostname (lit "host") /\
  single ec es (lit "imap@host") (lit "t1") /\ linked ec es ex_any /\
  wants ec (chr 7) /\ wants es (chr 6) /\ known_layers (chr 6) /\
  strong_enough ex_alone (chr 7) /\ agreed (chr 7) (chr 6) ex_alone LayerIntegrity /\
  (forall l, ~ common (chr 1) (chr 6) ex_alone l) /\
  fst (step es ss (Some (lit "t1")) []) = (Ok Running, lit "I" ++ [chr 2; chr 255; chr 255; chr 255]) /\
  fst (step ec (ses_of (step ec sc None [])) (Some (lit "I" ++ [chr 2; chr 255; chr 255; chr 255])) [])
    = (Ok (Finished true), lit "I" ++ [chr 2; chr 255; chr 255; chr 255]).
Proof.
  cbv zeta.
  split; [apply ex_single_provides|].
  split; [apply ex_single_provides|].
  split.
  { unfold single, client_one, server_one. do 7 (split; [first [reflexivity|discriminate]|]).
    reflexivity. }
  split.
  { intros c s conf m _. split; eexists; (split; [reflexivity|]); (split; [reflexivity|exact I]). }
  split; [left; apply ex_single_provides|].
  split; [left; apply ex_single_provides|].
  split.
  { intros n. destruct n as [|[[[]|[]|]|[[]|[]|]|]]; cbn; intros E; try discriminate E; discriminate. }
  split; [left; reflexivity|].
  split.
  { split; [repeat split|]. intros l'. destruct l'; intros [A [B C]]; try discriminate.
    destruct C; discriminate. }
  split; [intros l [A [B C]]; destruct l; discriminate|].
  split; vm_compute; reflexivity.
Qed.
