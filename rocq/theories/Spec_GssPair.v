(** Vocabulary for C79: a GSSAPI client and server over GSS libraries that work together. *)
From Verif Require Import Bytes Types World CallbackSpec Gssapi Session Spec_Gssapi.

(** Two contexts are linked: what one wraps, the other unwraps, and they stay linked. Contexts
    are the lists of operations performed on them. *)
Definition linked (ec es : env) (R : gctx -> gctx -> Prop) : Prop :=
  forall c s conf m, R c s ->
    (exists t, e_gss_wrap ec c conf m = Some t /\ e_gss_unwrap es s t = Some m /\
       R (c ++ [GWrap conf m]) (s ++ [GUnwrap t])) /\
    (exists t, e_gss_wrap es s conf m = Some t /\ e_gss_unwrap ec c t = Some m /\
       R (c ++ [GUnwrap t]) (s ++ [GWrap conf m])).

(** The contexts of client and server when one token each has been exchanged. *)
Definition client_two (name t2 : bytes) : gctx := [GInit name; GStep None; GStep (Some t2)].
Definition server_one (t1 : bytes) : gctx := [GAccept; GStep (Some t1)].

(** Mutual authentication: the context of the client needs the server's token. *)
Definition mutual (ec es : env) (name t1 t2 : bytes) : Prop :=
  e_gss_name ec name = true /\ e_gss_cred ec = true /\ e_gss_cred es = true /\ t1 <> [] /\
  e_gss_step ec [GInit name] None = Some (Some t1) /\
  e_gss_complete ec [GInit name; GStep None] = false /\
  e_gss_step es [GAccept] (Some t1) = Some (Some t2) /\
  e_gss_complete es (server_one t1) = true /\
  (e_gss_step ec [GInit name; GStep None] (Some t2) = Some None \/
   e_gss_step ec [GInit name; GStep None] (Some t2) = Some (Some [])) /\
  e_gss_complete ec (client_two name t2) = true.

(** The layers an application accepts: those it names, or all. *)
Definition wants (e : env) (set : byte) : Prop :=
  provides e PGssSecurityLayer set \/ (withholds e PGssSecurityLayer /\ set = all_layers).

(** The client's library can do what its application insists on. *)
Definition strong_enough (f : gflags) (set : byte) : Prop :=
  set = all_layers \/ set = chr 0 \/ layer_in LayerNone set \/
  (layer_in LayerIntegrity set /\ gf_integ f = true) \/
  (gf_integ f = true /\ gf_mutual f = true /\ gf_conf f = true).

(** A layer both applications accept and the server's context can provide. *)
Definition common (cset sset : byte) (f : gflags) (l : layer) : Prop :=
  layer_in l cset /\ layer_in l sset /\ capable f l.
(** The strongest of them. *)
Definition agreed (cset sset : byte) (f : gflags) (l : layer) : Prop :=
  common cset sset f l /\ forall l', common cset sset f l' -> weaker l' l.

(** Two finished sessions with the same security layer over linked contexts. *)
Definition paired (R : gctx -> gctx -> Prop) (sc ss : session) : Prop :=
  exists c s conf, R c s /\ s_mech sc = XGssapiC (GcCompleted (Some (c, conf))) /\
    s_mech ss = XGssapiS (GsDone (Some (s, conf))).

(** Data sent through the layer, by the client ([true]) or the server: each piece is encoded by
    one side and decoded by the other. [got] is what comes out. *)
Inductive traffic (ec es : env) : session -> session -> list (bool * bytes) -> list (bool * bytes) ->
    session -> session -> Prop :=
| tr_nil sc ss : traffic ec es sc ss [] [] sc ss
| tr_client sc ss d t sc1 n d' ss1 n' ds got sc2 ss2 :
    session_encode ec sc d [] = (Ok n, t, sc1) -> session_decode es ss t [] = (Ok n', d', ss1) ->
    traffic ec es sc1 ss1 ds got sc2 ss2 ->
    traffic ec es sc ss ((true, d) :: ds) ((true, d') :: got) sc2 ss2
| tr_server sc ss d t ss1 n d' sc1 n' ds got sc2 ss2 :
    session_encode es ss d [] = (Ok n, t, ss1) -> session_decode ec sc t [] = (Ok n', d', sc1) ->
    traffic ec es sc1 ss1 ds got sc2 ss2 ->
    traffic ec es sc ss ((false, d) :: ds) ((false, d') :: got) sc2 ss2.

(** The contexts when only the client has sent a token. *)
Definition client_one (name : bytes) : gctx := [GInit name; GStep None].

(** Authentication of the client alone: its one token establishes both contexts, and the server
    has none to return. *)
Definition single (ec es : env) (name t1 : bytes) : Prop :=
  e_gss_name ec name = true /\ e_gss_cred ec = true /\ e_gss_cred es = true /\ t1 <> [] /\
  e_gss_step ec [GInit name] None = Some (Some t1) /\
  e_gss_complete ec (client_one name) = true /\
  e_gss_step es [GAccept] (Some t1) = Some None /\
  e_gss_complete es (server_one t1) = true.
