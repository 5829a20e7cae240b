(** Specification vocabulary for GSSAPI security layers (RFC 4752). *)
From Coq Require Import NArith.
From Verif Require Import Bytes Types World CallbackSpec Gssapi Session.

(** The three security layers and their bits in an octet (RFC 4752 section 3.3). *)
Inductive layer := LayerNone | LayerIntegrity | LayerConfidentiality.
Definition layer_bit (l : layer) : N :=
  match l with LayerNone => 0 | LayerIntegrity => 1 | LayerConfidentiality => 2 end.
Definition layer_in (l : layer) (set : byte) : Prop :=
  N.testbit (Ascii.N_of_ascii set) (layer_bit l) = true.
Definition all_layers : byte := chr 7.

(** The layer a finished session uses. *)
Inductive uses_layer : mech -> layer -> Prop :=
| ul_client_conf c : uses_layer (XGssapiC (GcCompleted (Some (c, true)))) LayerConfidentiality
| ul_client_integ c : uses_layer (XGssapiC (GcCompleted (Some (c, false)))) LayerIntegrity
| ul_client_none : uses_layer (XGssapiC (GcCompleted None)) LayerNone
| ul_server_conf c : uses_layer (XGssapiS (GsDone (Some (c, true)))) LayerConfidentiality
| ul_server_integ c : uses_layer (XGssapiS (GsDone (Some (c, false)))) LayerIntegrity
| ul_server_none : uses_layer (XGssapiS (GsDone None)) LayerNone.

(** What the application accepts: its answer, or everything if it gave none. *)
Definition acceptable_to (evs : list event) (set : byte) : Prop :=
  answers PGssSecurityLayer evs = [set] \/
  (answers PGssSecurityLayer evs = [] /\ set = all_layers).

(** The layers an established context can provide. *)
Definition capable (f : gflags) (l : layer) : Prop :=
  match l with
  | LayerNone => True
  | LayerIntegrity => gf_integ f = true
  | LayerConfidentiality => gf_mutual f = true /\ gf_conf f = true
  end.

(** Exactly one layer selected, as RFC 4752 requires of the client. *)
Definition selects_one (set : byte) (l : layer) : Prop :=
  forall l', layer_in l' set <-> l' = l.

(** Only bits of the three layers are set. *)
Definition known_layers (set : byte) : Prop :=
  forall n, N.testbit (Ascii.N_of_ascii set) n = true -> (n <= 2)%N.

(** The octet that selects a layer, and the preference among layers. *)
Definition layer_octet (l : layer) : byte :=
  match l with LayerNone => chr 1 | LayerIntegrity => chr 2 | LayerConfidentiality => chr 4 end.
Definition weaker (l l' : layer) : Prop := (layer_bit l <= layer_bit l')%N.

(** The maximal message size announced: RFC 4752 demands 0 without a security layer. *)
Definition size_for (protected : bool) : bytes :=
  if protected then [chr 255; chr 255; chr 255] else [chr 0; chr 0; chr 0].
Definition is_protected (l : layer) : bool := match l with LayerNone => false | _ => true end.

(** The context was opened for the host-based service the application named. *)
Definition opened_for (evs : list event) (c : gctx) : Prop :=
  exists service host calls, answers PGssService evs = [service] /\
    answers PHostname evs = [host] /\ c = GInit (service ++ lit "@" ++ host) :: calls.

(** The negotiated layer, with the state of its GSS context. *)
Definition protects (m : mech) (c : gctx) (conf : bool) : Prop :=
  m = XGssapiC (GcCompleted (Some (c, conf))) \/ m = XGssapiS (GsDone (Some (c, conf))).

(** Outcome of sending [data], the library's output, to a writer: everything is written and
    [len] is reported, or the writer failed after a prefix; a writer that accepts everything
    does not fail. No output at all if the library failed. *)
Definition sends (data : option bytes) (len : nat) (script : list wresp) (after : mech)
    (r : res serr nat * bytes * session) : Prop :=
  match data with
  | None => exists s', r = (Err (EMech MGss), [], s') /\ s_mech s' = after
  | Some t =>
      (exists s', r = (Ok len, t, s') /\ s_mech s' = after) \/
      (script <> [] /\ exists p q x s', t = p ++ q /\ r = (Err (EIo x), p, s') /\
         s_mech s' = after)
  end.
