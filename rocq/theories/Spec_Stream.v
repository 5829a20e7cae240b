(** Vocabulary for C107: protected data over a stream. *)
From Verif Require Import Bytes Types World Session Spec_Gssapi.

(** One side protects the data [ds], one call of encode for each: [fs] is what is written. *)
Inductive encoded (e : env) : session -> list bytes -> list bytes -> session -> Prop :=
| enc_nil s : encoded e s [] [] s
| enc_cons s d n t s1 ds fs s2 :
    session_encode e s d [] = (Ok n, t, s1) -> encoded e s1 ds fs s2 ->
    encoded e s (d :: ds) (t :: fs) s2.

(** The receiver mechanism.rs:88-105 describes: it reads a piece when nothing is left ([buf] is what is left
    of those read before), keeps what it has and reads more while decode says InputDataRequired, and otherwise
    drops what decode has processed. It gets [out]. *)
Inductive receives (e : env) : session -> bytes -> list bytes -> bytes -> session -> Prop :=
| rc_end s : receives e s [] [] [] s
| rc_read s p ps out s' : receives e s p ps out s' -> receives e s [] (p :: ps) out s'
| rc_more s buf p ps out0 s1 out s' :
    buf <> [] -> session_decode e s buf [] = (Err EInputDataRequired, out0, s1) ->
    receives e s1 (buf ++ p) ps out s' -> receives e s buf (p :: ps) out s'
| rc_take s buf n out0 s1 ps out s' :
    buf <> [] -> session_decode e s buf [] = (Ok n, out0, s1) ->
    receives e s1 (skipn n buf) ps out s' -> receives e s buf ps (out0 ++ out) s'.

(** What the sender's library wraps, the receiver's unwraps, in the same order. A token is not empty. *)
Definition delivers (e1 e2 : env) (R : gctx -> gctx -> Prop) : Prop :=
  forall c s conf m, R c s ->
    exists t, e_gss_wrap e1 c conf m = Some t /\ t <> [] /\ e_gss_unwrap e2 s t = Some m /\
      R (c ++ [GWrap conf m]) (s ++ [GUnwrap t]).

(** Sessions with a security layer, the contexts of which belong together. *)
Definition joined (R : gctx -> gctx -> Prop) (a b : session) : Prop :=
  exists c s conf conf', R c s /\ protects (s_mech a) c conf /\ protects (s_mech b) s conf'.
