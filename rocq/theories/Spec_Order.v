(** Names, ranking and initiative of the built-in mechanisms, from the IANA registry, the RFCs
    and the documentation in registry.rs, config.rs and session.rs. *)
From Verif Require Import Bytes Types World Simple OAuth Scram Gssapi Session Registry
  Spec_Registry.

(** IANA's SASL mechanism names; XOAUTH2 is Google's. *)
Definition iana_name (m : mechanism) : bytes :=
  match m with
  | DScram SHA1 false => lit "SCRAM-SHA-1"
  | DScram SHA1 true => lit "SCRAM-SHA-1-PLUS"
  | DScram SHA256 false => lit "SCRAM-SHA-256"
  | DScram SHA256 true => lit "SCRAM-SHA-256-PLUS"
  | DScram SHA512 false => lit "SCRAM-SHA-512"
  | DScram SHA512 true => lit "SCRAM-SHA-512-PLUS"
  | DPlain => lit "PLAIN"
  | DLogin => lit "LOGIN"
  | DAnonymous => lit "ANONYMOUS"
  | DExternal => lit "EXTERNAL"
  | DXOAuth2 => lit "XOAUTH2"
  | DOAuthBearer => lit "OAUTHBEARER"
  | DGssapi => lit "GSSAPI"
  | DCustom c => cu_name c
  end.

(** The default order documented at registry.rs:10-17, best first; SCRAM-SHA-512, XOAUTH2 and
    OAUTHBEARER are not mentioned there. *)
Inductive documented_rank : mechanism -> nat -> Prop :=
| dr_gssapi : documented_rank DGssapi 1
| dr_scram256 plus : documented_rank (DScram SHA256 plus) 2
| dr_scram1 plus : documented_rank (DScram SHA1 plus) 3
| dr_plain : documented_rank DPlain 4
| dr_login : documented_rank DLogin 5
| dr_anonymous : documented_rank DAnonymous 6
| dr_external : documented_rank DExternal 6.

(** The mechanisms of SASLConfig::with_credentials in the order in which they are preferred
    (config.rs:120-127; SCRAM-SHA-512 is not mentioned there). *)
Definition credentials_order (authzid : bool) : list mechanism :=
  DScram SHA256 false :: DScram SHA512 false :: DScram SHA1 false :: DPlain ::
  if authzid then [] else [DLogin].

(** A session just begun by this side. *)
Definition begun (reg : list mechanism) (sd : side) (m : mechanism) (s : session) : Prop :=
  match sd with
  | SClient => fresh_client m (Builtin (s_mech s))
  | SServer => fresh_server reg m (Builtin (s_mech s))
  end.

(** The side that, by the mechanisms' specifications, sends the first message. *)
Definition initiator (m : mechanism) : side :=
  match m with DLogin => SServer | DCustom c => cu_first c | _ => SClient end.

(** Mechanisms that do not insist on input although the other side goes first. *)
Definition careless (sd : side) (m : mechanism) : Prop :=
  match sd, m with
  | SClient, DLogin | SServer, DExternal | SServer, DAnonymous => True
  | _, _ => False
  end.
