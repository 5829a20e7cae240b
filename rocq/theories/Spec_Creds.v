(** Specification vocabulary for exchanges of a client made by SASLConfig::with_credentials (C96). *)
From Coq Require Import NArith.
From Verif Require Import Bytes Utf8 Types World CallbackSpec Num Simple OAuth ScramParser Scram Gssapi Session Registry Apps Interop
  Spec_Simple Spec_OAuth Spec_ScramText Spec_Scram Spec_Registry Spec_Order Spec_History Spec_Talk.

(** SASLConfig::with_credentials(z, a, p). *)
Definition given {A} (z : option A) : bool := match z with Some _ => true | None => false end.
Definition credentials_client (z : option bytes) (a p : bytes) : application :=
  mk_app (fun _ _ _ _ => credentials_cb z a p) (fun _ _ _ => VRet None) (credentials_registry (given z)).

(** The environment of the sessions of an application, and a new session. *)
Definition session_env (e : env) (app : application) (sd : side) (m : mechanism) : env :=
  with_app e (mk_sdata (d_name m) sd) (ap_cb app) (ap_vcb app).
Definition new_session (m : mech) : session := mk_session m [] 0 None.

(** Names and passwords that every mechanism can carry: non-empty text without NUL that SASLprep
    leaves alone; names also without comma and equals sign. *)
Definition carried (e : env) (x : bytes) : Prop :=
  x <> [] /\ utf8_valid x = true /\ nul_free x /\ prepared e x x.
Definition carried_name (e : env) (x : bytes) : Prop :=
  carried e x /\ free ","%char x /\ free "="%char x.

(** What a server shows its application of the credentials. *)
Definition shows (m : mechanism) (c : ctx) (z : option bytes) (a p : bytes) : Prop :=
  match m with
  | DScram _ _ => offers_scram c a z
  | DPlain => offers_plain c (match z with Some x => x | None => [] end) a p
  | DLogin => offers_login c a p
  | _ => False
  end.

(** The application of a server has this user: it stores keys made from the password for SCRAM, and
    approves of the user when it is shown the credentials. *)
Definition has_user (es : env) (m : mechanism) (z : option bytes) (a p : bytes) : Prop :=
  (forall g plus, m = DScram g plus -> exists sp, looks_up es a z (Some sp) /\ stored_for es g p sp /\
     (1 <= st_iterations sp <= u32_max)%N) /\
  (forall tr c slot, shows m c z a p -> fst (run_validate (e_vtag es) (e_vcb es tr (e_sd es) c) slot) = None).

(** A client and a server that take turns get to the end: one side finishes with a last message, on
    which the other one finishes. *)
Definition completes (ec es : env) (m : mechanism) (c0 s0 c s : session) : Prop :=
  exists n sd i c1 s1 out x y, talk ec es m c0 s0 n sd i c1 s1 /\
    moves ec es sd c1 s1 i [] = (Ok (Finished true), out, x) /\
    replies ec es sd c1 s1 (Some out) [] = (Ok (Finished false), [], y) /\
    match sd with SClient => c = x /\ s = y | SServer => c = y /\ s = x end.
