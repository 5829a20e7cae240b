(** Cargo.toml and registry.rs: which mechanisms are compiled in and registered. *)
From Coq Require Import Permutation.
From Verif Require Import Bytes Types World Simple OAuth Scram Gssapi Session Registry.

(** Cargo.toml:51-70, 92: the features that concern mechanisms. *)
Record features := mk_features {
  ft_sha1 : bool; ft_sha2 : bool; ft_anonymous : bool; ft_external : bool; ft_plain : bool;
  ft_login : bool; ft_xoauth2 : bool; ft_oauthbearer : bool; ft_gssapi : bool;
  ft_static : bool                   (* registry_static *) }.

Definition cfg {A} (b : bool) (l : list A) : list A := if b then l else [].

(** registry.rs:193-219 Registry::default without static registry. *)
Definition default_of (f : features) : list mechanism :=
  cfg (ft_sha2 f) [DScram SHA512 false] ++ cfg (ft_sha2 f) [DScram SHA256 false] ++
  cfg (ft_sha1 f) [DScram SHA1 false] ++ cfg (ft_plain f) [DPlain] ++ cfg (ft_login f) [DLogin] ++
  cfg (ft_anonymous f) [DAnonymous] ++ cfg (ft_external f) [DExternal] ++
  cfg (ft_xoauth2 f) [DXOAuth2] ++ cfg (ft_oauthbearer f) [DOAuthBearer].

(** The statics marked [distributed_slice(MECHANISMS)] in the mechinfo.rs files, e.g.
    gssapi/mechinfo.rs:6-13, scram/mechinfo.rs:18-23; the -PLUS ones are not
    (scram/mechinfo.rs:89, 194, 299). *)
Definition linked (f : features) : list mechanism :=
  default_of f ++ cfg (ft_gssapi f) [DGssapi].

(** registry.rs:186-191, 280-281: with the static registry the linker collects the mechanisms, in an
    order of its own. (Simplification: no mechanisms of other crates.) *)
Definition default_registry (f : features) (reg : list mechanism) : Prop :=
  if ft_static f then Permutation reg (linked f) else reg = default_of f.

(** registry.rs:155-183 Registry::credentials. *)
Definition credentials_of (f : features) (authzid : bool) : list mechanism :=
  cfg (ft_sha2 f) [DScram SHA512 false] ++ cfg (ft_sha2 f) [DScram SHA256 false] ++
  cfg (ft_sha1 f) [DScram SHA1 false] ++ cfg (ft_plain f) [DPlain] ++
  if authzid then [] else cfg (ft_login f) [DLogin].
