(** registry.rs, config.rs, sasl.rs and the mechinfo.rs files: which mechanism is run. *)
From Verif Require Import Bytes Types World Simple OAuth Scram Gssapi Session.

(** A mechanism defined by a downstream crate with [Mechanism::build] (registry.rs:79-95)
    and selected by name with [Matches] (simplification: other custom selectors are not
    modelled). Its implementation is not modelled. *)
Record custom := mk_custom {
  cu_name : bytes; cu_priority : nat; cu_client : bool; cu_server : bool; cu_first : side }.

(** registry.rs:52-67 Mechanism: the statics defined in the mechinfo.rs files. *)
Inductive mechanism :=
| DScram (a : alg) (plus : bool)
| DPlain | DLogin | DAnonymous | DExternal | DXOAuth2 | DOAuthBearer | DGssapi
| DCustom (c : custom).

(** scram/mechinfo.rs:24,127,232. *)
Definition scram_name (a : alg) : bytes :=
  match a with
  | SHA1 => lit "SCRAM-SHA-1"
  | SHA256 => lit "SCRAM-SHA-256"
  | SHA512 => lit "SCRAM-SHA-512"
  end.
(** scram/mechinfo.rs:90,195,300. *)
Definition scram_plus_name (a : alg) : bytes :=
  match a with
  | SHA1 => lit "SCRAM-SHA-1-PLUS"
  | SHA256 => lit "SCRAM-SHA-256-PLUS"
  | SHA512 => lit "SCRAM-SHA-512-PLUS"
  end.

(** [Mechanism::mechanism] in every mechinfo.rs. *)
Definition d_name (d : mechanism) : bytes :=
  match d with
  | DScram a false => scram_name a
  | DScram a true => scram_plus_name a
  | DPlain => lit "PLAIN"
  | DLogin => lit "LOGIN"
  | DAnonymous => lit "ANONYMOUS"
  | DExternal => lit "EXTERNAL"
  | DXOAuth2 => lit "XOAUTH2"
  | DOAuthBearer => lit "OAUTHBEARER"
  | DGssapi => lit "GSSAPI"
  | DCustom c => cu_name c
  end.

(** [Mechanism::priority]. *)
Definition d_priority (d : mechanism) : nat :=
  match d with
  | DScram SHA1 false => 400
  | DScram SHA1 true => 500
  | DScram _ false => 600
  | DScram _ true => 700
  | DPlain => 300
  | DLogin => 200
  | DAnonymous => 100
  | DExternal => 100
  | DXOAuth2 => 300
  | DOAuthBearer => 300
  | DGssapi => 300
  | DCustom c => cu_priority c
  end.

(** [Mechanism::first]. *)
Definition d_first (d : mechanism) : side :=
  match d with
  | DLogin => SServer
  | DCustom c => cu_first c
  | _ => SClient
  end.

(** [Mechanism::client.is_some()] and [Mechanism::server.is_some()]. *)
Definition d_has_client (d : mechanism) : bool :=
  match d with DCustom c => cu_client c | _ => true end.
Definition d_has_server (d : mechanism) : bool :=
  match d with DCustom c => cu_server c | _ => true end.

(** A started implementation; custom ones are opaque. *)
Inductive inst := Builtin (m : mech) | Foreign (c : custom).

(** error.rs SASLError as far as starting a session is concerned. *)
Inductive sasl_err := NoSharedMechanism.

(** scram/client.rs:42-51 ScramClient::new. *)
Definition scram_client_new (a : alg) (set_cb_client_no_support : bool) : mech :=
  XScramC a (Some (ScInitial (if set_cb_client_no_support then ClientNoSupport
                              else ServerNoSupport))).
(** scram/client.rs:53-59 ScramClient::new_plus. *)
Definition scram_client_new_plus (a : alg) : mech := XScramC a (Some (ScInitial Supported)).

(** registry.rs:99-101 Mechanism::client and the [client:] functions; None = no client. *)
Definition d_client (d : mechanism) : option inst :=
  match d with
  | DScram a false => Some (Builtin (scram_client_new a true))
  | DScram a true => Some (Builtin (scram_client_new_plus a))
  | DPlain => Some (Builtin XPlainC)
  | DLogin => Some (Builtin (XLoginC LcAuthid))
  | DAnonymous => Some (Builtin XAnonymousC)
  | DExternal => Some (Builtin XExternalC)
  | DXOAuth2 => Some (Builtin (XXOAuth2C OcInitial))
  | DOAuthBearer => Some (Builtin (XOAuthBearerC OcInitial))
  | DGssapi => Some (Builtin (XGssapiC GcInitial))
  | DCustom c => if cu_client c then Some (Foreign c) else None
  end.

(** registry.rs:104-106 Mechanism::server and the [server:] functions. A bare SCRAM server
    looks for the -PLUS name in the configuration's mechanism list (scram/mechinfo.rs:27-32,
    130-137, 235-242). *)
Definition d_server (reg : list mechanism) (d : mechanism) : option inst :=
  match d with
  | DScram a false =>
      let can_cb := existsb (fun m => bytes_eqb (d_name m) (scram_plus_name a)) reg in
      Some (Builtin (XScramS a (Some (SsClientFirst can_cb))))
  | DScram a true => Some (Builtin (XScramS a (Some (SsClientFirst true))))
  | DPlain => Some (Builtin XPlainS)
  | DLogin => Some (Builtin (XLoginS LsNew))
  | DAnonymous => Some (Builtin XAnonymousS)
  | DExternal => Some (Builtin XExternalS)
  | DXOAuth2 => Some (Builtin (XXOAuth2S OsInitial))
  | DOAuthBearer => Some (Builtin (XOAuthBearerS OsInitial))
  | DGssapi => Some (Builtin (XGssapiS GsInitial))
  | DCustom c => if cu_server c then Some (Foreign c) else None
  end.

(** scram/mechinfo.rs:52-59 ScramSelector1 (and 157-164, 262-269). *)
Inductive scramsel := SelNo | SelBare | SelPlus.

(** registry.rs:302-306 Selection: [Nothing(Box<dyn Selector>)] with the two kinds of
    selector that exist, or [Done]. *)
Inductive selection :=
| NothingMatches (d : mechanism)
| NothingScram (a : alg) (s : scramsel)
| SelDone (d : mechanism).

(** The [select:] functions of the mechinfo.rs files. *)
Definition d_select (cb : bool) (d : mechanism) : option selection :=
  match d with
  | DScram a false => Some (if cb then NothingScram a SelNo else NothingMatches d)
  | DScram a true => if cb then Some (NothingMatches d) else None
  | _ => Some (NothingMatches d)
  end.

(** registry.rs:308-314 Selection::select with 343-350 (Matches) and
    scram/mechinfo.rs:62-72 (ScramSelector). *)
Definition sel_select (s : selection) (o : bytes) : selection :=
  match s with
  | NothingMatches d => if bytes_eqb o (d_name d) then SelDone d else s
  | NothingScram a x =>
      if bytes_eqb o (scram_name a)
      then NothingScram a (match x with SelNo => SelBare | x => x end)
      else if bytes_eqb o (scram_plus_name a) then NothingScram a SelPlus
      else s
  | SelDone d => s
  end.

(** registry.rs:316-321 Selection::done; 351-353; scram/mechinfo.rs:74-79. *)
Definition sel_done (s : selection) : option mechanism :=
  match s with
  | NothingMatches _ => None
  | NothingScram a SelNo => None
  | NothingScram a _ => Some (DScram a false)
  | SelDone d => Some d
  end.

(** registry.rs:323-328 Selection::finalize; 354-357; scram/mechinfo.rs:81-87. *)
Definition sel_finalize (s : selection) : res sasl_err inst :=
  match s with
  | NothingMatches d | SelDone d =>
      match d_client d with Some i => Ok i | None => Panic end
  | NothingScram a SelBare => Ok (Builtin (scram_client_new a false))
  | NothingScram a SelPlus => Ok (Builtin (scram_client_new a true))
  | NothingScram a SelNo => Panic
  end.

Definition filter_map {A B} (f : A -> option B) (l : list A) : list B :=
  flat_map (fun x => match f x with Some y => [y] | None => [] end) l.

(** A preference function (callback.rs:111-113, overridable by the user). *)
Definition preference := option mechanism -> mechanism -> comparison.

(** callback.rs:111-113: the default. *)
Definition default_prefer : preference :=
  fun a b => match a with
             | None => Lt
             | Some old => Nat.compare (d_priority old) (d_priority b)
             end.

(** registry.rs:249-262: the fold. *)
Definition sel_fold (prefer : preference) (acc : option (selection * mechanism))
    (sm : selection * mechanism) : option (selection * mechanism) :=
  match prefer (option_map snd acc) (snd sm) with
  | Gt => acc
  | Eq | Lt => Some sm
  end.

(** registry.rs:230-267 Registry::select. *)
Definition registry_select (reg : list mechanism) (cb : bool) (offered : list bytes)
    (prefer : preference) : res sasl_err (inst * mechanism) :=
  let selectors := filter_map (d_select cb) reg in
  let selectors := fold_left (fun ss o => map (fun s => sel_select s o) ss) offered selectors in
  let dones := filter_map (fun s => option_map (fun m => (s, m)) (sel_done s)) selectors in
  match fold_left (sel_fold prefer) dones None with
  | None => Err NoSharedMechanism
  | Some (s, m) =>
      match sel_finalize s with
      | Ok i => Ok (i, m)
      | Err x => Err x
      | Panic => Panic
      end
  end.

(** config.rs:59-65, 211-220 and sasl.rs:175-181: client start. [cb] is the callback's
    enable_channel_binding (Inner::cb is always false, config.rs:195). *)
Definition client_start (reg : list mechanism) (cb : bool) (prefer : preference)
    (offered : list bytes) : res sasl_err (inst * mechanism) :=
  registry_select reg cb offered prefer.

(** sasl.rs:195-197 get_available. *)
Definition get_available (reg : list mechanism) : list mechanism :=
  filter d_has_server reg.

(** sasl.rs:183-193: server start. *)
Definition server_start (reg : list mechanism) (selected : bytes)
  : res sasl_err (inst * mechanism) :=
  match find (fun m => bytes_eqb (d_name m) selected) (get_available reg) with
  | None => Err NoSharedMechanism
  | Some m => match d_server reg m with
              | None => Err NoSharedMechanism
              | Some i => Ok (i, m)
              end
  end.

(** session.rs:75-77 are_we_first; 80-82 get_mechname is [d_name]. *)
Definition are_we_first (s : side) (d : mechanism) : bool :=
  match s, d_first d with
  | SClient, SClient | SServer, SServer => true
  | _, _ => false
  end.

(** registry.rs:194-219 the default registry (all features, no static registry). *)
Definition builtin_registry : list mechanism :=
  [DScram SHA512 false; DScram SHA256 false; DScram SHA1 false; DPlain; DLogin;
   DAnonymous; DExternal; DXOAuth2; DOAuthBearer].

(** registry.rs:155-183 Registry::credentials. *)
Definition credentials_registry (authzid : bool) : list mechanism :=
  [DScram SHA512 false; DScram SHA256 false; DScram SHA1 false; DPlain]
  ++ if authzid then [] else [DLogin].

(** config.rs:141-154 the callback of with_credentials. *)
Definition credentials_cb (authzid : option bytes) (authid password : bytes) : cbprog :=
  CSatisfy PAuthId authid (fun r =>
    match r with
    | Some x => CRet (Some x)
    | None =>
        CSatisfy PPassword password (fun r =>
          match r with
          | Some x => CRet (Some x)
          | None =>
              match authzid with
              | Some z => CSatisfy PAuthzId z (fun r => CRet r)
              | None => CRet None
              end
          end)
    end).
