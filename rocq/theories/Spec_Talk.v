(** Specification vocabulary for steps without data (C70) and for a client and a server talking to
    each other (C71). *)
From Verif Require Import Bytes Types World Simple OAuth Scram Gssapi Session Registry
  Spec_Registry Spec_Order Spec_History.

Definition is_login (m : mechanism) : Prop := match m with DLogin => True | _ => False end.

(** No data: absent or empty (mechanism.rs:41-43). *)
Definition no_data (input : option bytes) : Prop := input = None \/ input = Some [].

(** [s] has made at least one step, and all of them returned Running. *)
Definition underway (e : env) (reg : list mechanism) (sd : side) (m : mechanism) (s : session)
  : Prop :=
  exists s0 s1 input script out, begun reg sd m s0 /\ ongoing e s0 s1 /\
    step e s1 input script = (Ok Running, out, s).

(** [s] cannot go on without data: it is underway, or the other side begins. *)
Definition awaits (e : env) (reg : list mechanism) (sd : side) (m : mechanism) (s : session)
  : Prop :=
  (begun reg sd m s /\ sd <> initiator m) \/ underway e reg sd m s.

(** A client and a server take turns, each message being delivered as it was sent.
    [talk ec es m c0 s0 n sd i c s]: they started as [c0] and [s0], [n] messages have been
    delivered, all steps returned Running, and [sd] is to step next, with input [i]. *)
Inductive talk (ec es : env) (m : mechanism) (c0 s0 : session)
  : nat -> side -> option bytes -> session -> session -> Prop :=
| talk_start : talk ec es m c0 s0 0 (initiator m) None c0 s0
| talk_client n i c s script out c' :
    talk ec es m c0 s0 n SClient i c s -> step ec c i script = (Ok Running, out, c') ->
    talk ec es m c0 s0 (S n) SServer (Some out) c' s
| talk_server n i c s script out s' :
    talk ec es m c0 s0 n SServer i c s -> step es s i script = (Ok Running, out, s') ->
    talk ec es m c0 s0 (S n) SClient (Some out) c s'.

(** A step of the side [sd], and one of the other side. *)
Definition moves (ec es : env) (sd : side) (c s : session) (i : option bytes)
    (script : list wresp) : res serr state * bytes * session :=
  match sd with SClient => step ec c i script | SServer => step es s i script end.
Definition replies (ec es : env) (sd : side) (c s : session) (i : option bytes)
    (script : list wresp) : res serr state * bytes * session :=
  match sd with SClient => step es s i script | SServer => step ec c i script end.
