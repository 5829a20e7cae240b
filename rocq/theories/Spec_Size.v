(** Vocabulary for C84: maximal message sizes of GSSAPI (RFC 4752 section 3). *)
From Verif Require Import Bytes Types World Gssapi Session Spec_Gssapi.

(** The size announced by three octets, in network byte order. *)
Definition announced (size : bytes) : N :=
  fold_left (fun n b => 256 * n + Ascii.N_of_ascii b)%N size 0%N.

(** The session waits for the token with which the other side announces layers and size. *)
Definition awaits_size (s : session) (c : gctx) : Prop :=
  exists set, s_mech s = XGssapiC (GcLast c set) \/ s_mech s = XGssapiS (GsFinal c set).

(** Calls of encode (true) and decode (false), one after the other. *)
Fixpoint transfers (e : env) (s : session) (l : list (bool * bytes * list wresp))
  : list (res serr nat * bytes) :=
  match l with
  | [] => []
  | (true, data, script) :: l =>
      match session_encode e s data script with (r, out, s') => (r, out) :: transfers e s' l end
  | (false, data, script) :: l =>
      match session_decode e s data script with (r, out, s') => (r, out) :: transfers e s' l end
  end.

(** The library protects further messages the same way after either token. *)
Definition same_library (e : env) (c : gctx) (t1 t2 : bytes) : Prop :=
  forall calls m,
    e_gss_unwrap e (c ++ GUnwrap t1 :: calls) m = e_gss_unwrap e (c ++ GUnwrap t2 :: calls) m /\
    forall conf, e_gss_wrap e (c ++ GUnwrap t1 :: calls) conf m = e_gss_wrap e (c ++ GUnwrap t2 :: calls) conf m.
