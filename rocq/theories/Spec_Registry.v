(** Specification of mechanism selection, independent of selectors and folds. *)
From Verif Require Import Bytes Types World Simple OAuth Scram Gssapi Session Registry.

(** A mechanism name a server may offer for [m] so that [m] is considered: its own name;
    and, if the client enabled channel binding, for a bare SCRAM mechanism also the name of
    the -PLUS variant (scram/mechinfo.rs:62-79). A -PLUS mechanism is only considered if
    channel binding is enabled. *)
Definition considered (cb : bool) (m : mechanism) (name : bytes) : Prop :=
  match m with
  | DScram a false => name = scram_name a \/ (cb = true /\ name = scram_plus_name a)
  | DScram a true => cb = true /\ name = scram_plus_name a
  | _ => name = d_name m
  end.

(** The server's offer makes [m] a candidate. *)
Definition candidate (cb : bool) (offered : list bytes) (m : mechanism) : Prop :=
  exists name, In name offered /\ considered cb m name.

(** [m] is the candidate with the highest priority, the last registered one among equals. *)
Definition best (cand : mechanism -> Prop) (reg : list mechanism) (m : mechanism) : Prop :=
  exists l1 l2, reg = l1 ++ m :: l2 /\ cand m /\
    (forall x, In x l1 -> cand x -> d_priority x <= d_priority m) /\
    (forall x, In x l2 -> cand x -> d_priority x < d_priority m).

(** A freshly created client of mechanism [m]. *)
Inductive fresh_client : mechanism -> inst -> Prop :=
| fc_scram a s : s <> Supported ->
    fresh_client (DScram a false) (Builtin (XScramC a (Some (ScInitial s))))
| fc_scram_plus a :
    fresh_client (DScram a true) (Builtin (XScramC a (Some (ScInitial Supported))))
| fc_plain : fresh_client DPlain (Builtin XPlainC)
| fc_login : fresh_client DLogin (Builtin (XLoginC LcAuthid))
| fc_anonymous : fresh_client DAnonymous (Builtin XAnonymousC)
| fc_external : fresh_client DExternal (Builtin XExternalC)
| fc_xoauth2 : fresh_client DXOAuth2 (Builtin (XXOAuth2C OcInitial))
| fc_oauthbearer : fresh_client DOAuthBearer (Builtin (XOAuthBearerC OcInitial))
| fc_gssapi : fresh_client DGssapi (Builtin (XGssapiC GcInitial))
| fc_custom c : cu_client c = true -> fresh_client (DCustom c) (Foreign c).

(** A freshly created server of mechanism [m] in a configuration with mechanisms [reg];
    SCRAM servers know whether the -PLUS variant is available. *)
Inductive fresh_server (reg : list mechanism) : mechanism -> inst -> Prop :=
| fs_scram a plus : (plus = true <-> exists x, In x reg /\ d_name x = scram_plus_name a) ->
    fresh_server reg (DScram a false) (Builtin (XScramS a (Some (SsClientFirst plus))))
| fs_scram_plus a :
    fresh_server reg (DScram a true) (Builtin (XScramS a (Some (SsClientFirst true))))
| fs_plain : fresh_server reg DPlain (Builtin XPlainS)
| fs_login : fresh_server reg DLogin (Builtin (XLoginS LsNew))
| fs_anonymous : fresh_server reg DAnonymous (Builtin XAnonymousS)
| fs_external : fresh_server reg DExternal (Builtin XExternalS)
| fs_xoauth2 : fresh_server reg DXOAuth2 (Builtin (XXOAuth2S OsInitial))
| fs_oauthbearer : fresh_server reg DOAuthBearer (Builtin (XOAuthBearerS OsInitial))
| fs_gssapi : fresh_server reg DGssapi (Builtin (XGssapiS GsInitial))
| fs_custom c : cu_server c = true -> fresh_server reg (DCustom c) (Foreign c).

Definition is_builtin (m : mechanism) : Prop :=
  match m with DCustom _ => False | _ => True end.

(** The first registered mechanism called [name] that has a server side. *)
Definition first_server (reg : list mechanism) (name : bytes) (m : mechanism) : Prop :=
  exists l1 l2, reg = l1 ++ m :: l2 /\ d_name m = name /\ d_has_server m = true /\
    forall x, In x l1 -> d_has_server x = true -> d_name x <> name.
