(** Specification vocabulary for the features a program is built with. *)
From Verif Require Import Bytes Types World CallbackSpec Simple OAuth Scram Gssapi Session Registry Interop Features
  Spec_Simple Spec_Registry Spec_Order Spec_Creds.

(** The mechanisms a feature is documented to enable (Cargo.toml:51-70). *)
Definition compiled (f : features) (m : mechanism) : bool :=
  match m with
  | DScram SHA1 _ => ft_sha1 f
  | DScram _ _ => ft_sha2 f
  | DPlain => ft_plain f
  | DLogin => ft_login f
  | DAnonymous => ft_anonymous f
  | DExternal => ft_external f
  | DXOAuth2 => ft_xoauth2 f
  | DOAuthBearer => ft_oauthbearer f
  | DGssapi => ft_gssapi f
  | DCustom _ => false
  end.

(** Everything of [f] is in [g]: Cargo builds a crate with all features any other crate wants. *)
Definition enables (f g : features) : Prop :=
  (forall m, compiled f m = true -> compiled g m = true) /\ (ft_static f = true -> ft_static g = true).

(** A client session gets its first message out. *)
Definition gets_going (e : env) (m : mech) : Prop :=
  exists st out s', step e (new_session m) None [] = (Ok st, out, s').

(** SASLConfig::with_credentials in a program built with these features. *)
Definition credentials_client_of (f : features) (z : option bytes) (a p : bytes) : application :=
  mk_app (fun _ _ _ _ => credentials_cb z a p) (fun _ _ _ => VRet None) (credentials_of f (given z)).

(** The example of mechanisms/mod.rs:15-20: features plain, gssapi and scram-sha-2; "only code for the
    mechanisms PLAIN, GSSAPI, SCRAM-SHA256 and SCRAM-SHA256-PLUS would be compiled into the crate and
    available at run time". *)
Definition documented_features (static : bool) : features :=
  mk_features false true false false true false false false true static.
Definition documented_names : list bytes :=
  [lit "PLAIN"; lit "GSSAPI"; lit "SCRAM-SHA-256"; lit "SCRAM-SHA-256-PLUS"].

(** No other candidate has the priority of this one. *)
Definition untied (cand : mechanism -> Prop) (reg : list mechanism) (m : mechanism) : Prop :=
  forall x, In x reg -> cand x -> d_priority x = d_priority m -> x = m.
