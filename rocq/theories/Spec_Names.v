(** One user, several mechanisms (C127). *)
From Verif Require Import Bytes Utf8 Types World CallbackSpec Simple OAuth ScramParser Scram Session Registry
  Spec_Simple Spec_OAuth Spec_Scram Spec_Registry Spec_Order.

(** A client and a server take turns as in [talk] (Spec_Talk.v), with writers that do not answer Ok(0). *)
Inductive chat (ec es : env) (m : mechanism) (c0 s0 : session)
  : nat -> side -> option bytes -> session -> session -> Prop :=
| chat_start : chat ec es m c0 s0 0 (initiator m) None c0 s0
| chat_client n i c s script out c' :
    chat ec es m c0 s0 n SClient i c s -> no_zero script -> step ec c i script = (Ok Running, out, c') ->
    chat ec es m c0 s0 (S n) SServer (Some out) c' s
| chat_server n i c s script out s' :
    chat ec es m c0 s0 n SServer i c s -> no_zero script -> step es s i script = (Ok Running, out, s') ->
    chat ec es m c0 s0 (S n) SClient (Some out) c s'.

(** A message of the client reaches the server: the client has begun as [c0] and stands at [c], the
    server has begun as [s0] and now steps from [s] with what the client wrote. *)
Definition told (ec es : env) (m : mechanism) (c0 s0 c s : session) (msg : bytes) : Prop :=
  exists n i cb script st, chat ec es m c0 s0 n SClient i cb s /\ no_zero script /\
    step ec cb i script = (Ok st, msg, c).

(** What the applications of clients hand over as [&str] is text, and the token of XOAUTH2 follows
    a user name without its separator. *)
Definition proper_names (m : mechanism) (evs : list event) : Prop :=
  text_answers evs /\ (forall t, In t (answers POAuthBearerToken evs) -> utf8_valid t = true) /\
  (m = DXOAuth2 -> forall a, In a (answers PAuthId evs) -> free (chr 1) a).

(** The name [b] a server shows for the name [a] of the client: PLAIN prepares it, SCRAM leaves it
    escaped. *)
Definition seen_as (es : env) (m : mechanism) (a b : bytes) : Prop :=
  match m with
  | DPlain => prepared es a b
  | DScram _ _ => escape a = Ok b
  | _ => b = a
  end.
