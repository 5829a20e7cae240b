(** Specification vocabulary for the example applications. *)
From Verif Require Import Bytes Types World CallbackSpec Session Registry Apps.

(** The policy of examples/server_plain.rs, as its assertions state it. The empty authorization
    identity is the one of clients that do not ask to act as somebody. *)
Inductive plain_policy : bytes -> bytes -> bytes -> verdict -> Prop :=
| pol_authz z a p : z <> [] -> z <> a -> plain_policy z a p AuthzBad
| pol_accept z : z = [] \/ z = lit "username" ->
    plain_policy z (lit "username") (lit "secret") (Accepted (lit "username"))
| pol_password z p : z = [] \/ z = lit "username" -> p <> lit "secret" ->
    plain_policy z (lit "username") p PasswdBad
| pol_user z a p : z = [] \/ z = a -> a <> lit "username" -> plain_policy z a p NoSuchUser.

(** The application obtained this verdict from the session. *)
Definition reached (s : session) (v : verdict) : Prop := s_val s = Some (verdict_value v).

(** The first mechanism in this order whose name is offered. *)
Definition first_offered (order : list mechanism) (offered : list bytes) (m : mechanism) : Prop :=
  exists before after, order = before ++ m :: after /\ In (d_name m) offered /\
    Forall (fun x => ~ In (d_name x) offered) before.

(** The order documented in examples/client_simple.rs:3-5. *)
Definition client_simple_order : list mechanism :=
  [DScram SHA256 false; DScram SHA512 false; DScram SHA1 false; DPlain; DLogin].
