(** Specification vocabulary for passwords sent in the clear (C117). *)
From Verif Require Import Bytes Types World Session Registry Apps Interop Spec_Order Spec_Creds Spec_Flow Spec_Derive.

(** All a client made by SASLConfig::with_credentials says in a session for these offers. *)
Definition spoken (e : env) (z : option bytes) (a p : bytes) (offered : list bytes)
    (l : list (option bytes * list wresp)) : option (list (res serr state * bytes)) :=
  match client_start (ap_registry (credentials_client z a p)) false default_prefer offered with
  | Ok (Builtin mc, m) =>
      Some (dialogue (session_env e (credentials_client z a p) SClient m) (new_session mc) l)
  | _ => None
  end.
(** One of its messages ends with this. *)
Definition said (says : option (list (res serr state * bytes))) (p : bytes) : Prop :=
  exists d r x, says = Some d /\ In (r, x ++ p) d.
(** A SCRAM mechanism (without -PLUS) is among the offers. *)
Definition scram_offered (offered : list bytes) : Prop :=
  exists g, In (d_name (DScram g false)) offered.
