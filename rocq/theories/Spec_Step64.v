(** Specification vocabulary for step64 and its writer (C98). *)
From Verif Require Import Bytes Base64 Types World Simple OAuth Scram Gssapi Session Step64.

(** Writers that never fail (they may take less than they are offered, and be interrupted). *)
Definition unfailing (ds : list wresp) : Prop := Forall (fun x => forall n, x <> WFail n) ds.

(** Writers that take whatever they are offered or fail. EncoderWriter never offers more than its
    buffer holds. *)
Definition whole (x : wresp) : Prop :=
  match x with WAccept n => 4 * enc_groups <= n | WFail _ => True | WInterrupt => False end.
