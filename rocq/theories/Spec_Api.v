(** Vocabulary for C122: sessions as applications and protocol implementations see them. *)
From Verif Require Import Bytes Types World Session Registry Api.

(** Any number of steps one after the other, with any input and writer: their results, what was
    written, and the session in the end. *)
Fixpoint ps_run (e : env) (p : psession) (l : list (option bytes * list wresp))
  : option (list (res serr state * bytes) * psession) :=
  match l with
  | [] => Some ([], p)
  | (input, script) :: l =>
      match ps_step e p input script with
      | None => None
      | Some (r, out, p') =>
          match ps_run e p' l with
          | None => None
          | Some (ds, q) => Some ((r, out) :: ds, q)
          end
      end
  end.

(** The same with another implementation of the callbacks. *)
Definition with_impl (s : sasl) (c : callback) : sasl :=
  mk_sasl (mk_config (cf_cb (sa_config s)) c (cf_mechanisms (sa_config s))) (sa_chan s) (sa_tag s)
    (sa_validation s).
Definition ps_with_impl (p : psession) (c : callback) : psession :=
  mk_psession (with_impl (ps_sasl p) c) (ps_side p) (ps_mechanism p) (ps_desc p) (ps_trace p)
    (ps_rng p).

(** Two implementations that choose alike among mechanisms. *)
Definition same_choice (c c' : callback) : Prop :=
  (forall a b, ca_prefer c' a b = ca_prefer c a b) /\
  ca_enable_channel_binding c' = ca_enable_channel_binding c.

(** Two implementations that behave alike when told of this mechanism and side. *)
Definition agree (c c' : callback) (sd : sdata) : Prop :=
  (forall tr x k, ca_callback c' tr sd x k = ca_callback c tr sd x k) /\
  (forall tr x, ca_validate c' tr sd x = ca_validate c tr sd x).

(** Implementations that leave [callback] or [validate] to the trait. *)
Definition provides_nothing (c : callback) : Prop :=
  forall tr sd x k, ca_callback c tr sd x k = CRet None.
Definition validates_nothing (c : callback) : Prop :=
  forall tr sd x, ca_validate c tr sd x = VRet None.

(** Configurations the builder makes. *)
Inductive built (c : callback) : list mechanism -> config -> Prop :=
| B_defaults : built c builtin_registry (with_callback (with_defaults builder_new) c)
| B_mechanisms : built c builtin_registry (with_callback (with_default_mechanisms builder_new) c)
| B_registry reg : built c reg (with_callback (with_registry builder_new reg) c).
