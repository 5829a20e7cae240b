(** Specification vocabulary for exchanges over base64 lines (C120). *)
From Verif Require Import Bytes Base64 Types World Session Registry Spec_Order.

(** An exchange with step64, one line after the other: the results and the lines written ... *)
Fixpoint lines64 (e : env) (s : session) (l : list (option bytes)) : list (res serr state * bytes) :=
  match l with
  | [] => []
  | i :: l => match step64 e s i with (r, out, s') => (r, out) :: lines64 e s' l end
  end.
(** ... and the session in the end. *)
Fixpoint after64 (e : env) (s : session) (l : list (option bytes)) : session :=
  match l with
  | [] => s
  | i :: l => after64 e (snd (step64 e s i)) l
  end.

(** [noisy l x l' x']: [l'] is [l] with lines among it that are no base64, and [x'] the results [x]
    with refusals of these lines among them. *)
Inductive noisy : list (option bytes) -> list (res serr state * bytes) ->
  list (option bytes) -> list (res serr state * bytes) -> Prop :=
| noisy_end : noisy [] [] [] []
| noisy_same i y l x l' x' : noisy l x l' x' -> noisy (i :: l) (y :: x) (i :: l') (y :: x')
| noisy_more z l x l' x' : (forall b, z <> encode b) -> noisy l x l' x' ->
    noisy l x (Some z :: l') ((Err EBase64, []) :: x').

(** A client and a server take turns with step64, each line being delivered as it was sent: as
    [talk] of Spec_Talk.v. *)
Inductive talk64 (ec es : env) (m : mechanism) (c0 s0 : session)
  : nat -> side -> option bytes -> session -> session -> Prop :=
| talk64_start : talk64 ec es m c0 s0 0 (initiator m) None c0 s0
| talk64_client n i c s out c' :
    talk64 ec es m c0 s0 n SClient i c s -> step64 ec c i = (Ok Running, out, c') ->
    talk64 ec es m c0 s0 (S n) SServer (Some out) c' s
| talk64_server n i c s out s' :
    talk64 ec es m c0 s0 n SServer i c s -> step64 es s i = (Ok Running, out, s') ->
    talk64 ec es m c0 s0 (S n) SClient (Some out) c s'.

(** The characters of base64. *)
Definition line64 (c : byte) : Prop :=
  In c (lit "ABCDEFGHIJKLMNOPQRSTUVWXYZabcdefghijklmnopqrstuvwxyz0123456789+/=").

(** A step64 of the side [sd], and one of the other side. *)
Definition moves64 (ec es : env) (sd : side) (c s : session) (i : option bytes)
  : res serr state * bytes * session :=
  match sd with SClient => step64 ec c i | SServer => step64 es s i end.
Definition replies64 (ec es : env) (sd : side) (c s : session) (i : option bytes)
  : res serr state * bytes * session :=
  match sd with SClient => step64 es s i | SServer => step64 ec c i end.
