(** Specification vocabulary for whole session calls and for PLAIN, LOGIN, EXTERNAL and
    ANONYMOUS. *)
From Verif Require Import Bytes Utf8 Types World CallbackSpec Simple Session.

(** The events the application observed between two states of a session. *)
Definition new_events (s s' : session) (evs : list event) : Prop :=
  s_trace s' = s_trace s ++ evs.

(** The PLAIN message of RFC 4616. *)
Definition plain_message (authzid authcid password : bytes) : bytes :=
  authzid ++ nul :: authcid ++ nul :: password.

Definition nul_free (x : bytes) : Prop := ~ In nul x.

(** What saslprep makes of an identity: the empty result is refused. *)
Definition prepared (e : env) (x y : bytes) : Prop := e_saslprep e x = Some y /\ y <> [].

(** What the server makes of a password: it is prepared if it is text, otherwise used raw. *)
Definition prepared_password (e : env) (x y : bytes) : Prop :=
  if utf8_valid x then prepared e x y else y = x /\ x <> [].

(** [msg] is a message the PLAIN server passes on for validation, as [z], [a] and [p]. *)
Definition plain_accepts (e : env) (msg z a p : bytes) : Prop :=
  exists a0 p0, msg = plain_message z a0 p0 /\ 4 <= length msg /\
    nul_free z /\ nul_free a0 /\ nul_free p0 /\
    utf8_valid z = true /\ utf8_valid a0 = true /\
    prepared e a0 a /\ prepared_password e p0 p.

(** The context offers exactly these three values. *)
Definition offers_plain (c : ctx) (z a p : bytes) : Prop :=
  get_ref c PAuthzId = Some z /\ get_ref c PAuthId = Some a /\ get_ref c PPassword = Some p /\
  forall q, q <> PAuthzId -> q <> PAuthId -> q <> PPassword -> get_ref c q = None.

(** The context offers exactly these two values. *)
Definition offers_login (c : ctx) (a p : bytes) : Prop :=
  get_ref c PAuthId = Some a /\ get_ref c PPassword = Some p /\
  forall q, q <> PAuthId -> q <> PPassword -> get_ref c q = None.

(** The context offers exactly one value. *)
Definition offers_only (c : ctx) (q : prop) (v : pval q) : Prop :=
  get_ref c q = Some v /\ forall q', q' <> q -> get_ref c q' = None.

(** Outcome of a server step whose last action was the validation: success, or the error of
    the application's validate callback. *)
Definition validated (r : res serr state) : Prop :=
  r = Ok (Finished false) \/ exists v, r = Err (EValidation v).

(** Any number of step calls without input data, each refused with InputDataRequired. *)
Inductive idle (e : env) : session -> session -> Prop :=
| idle_stop s : idle e s s
| idle_more s s1 s2 script out :
    step e s None script = (Err EInputDataRequired, out, s1) -> idle e s1 s2 -> idle e s s2.
