(** Specification vocabulary for what a failing step has written. *)
From Verif Require Import Bytes Types World CallbackSpec Simple OAuth Scram Gssapi Session Spec_Simple Spec_Errors Spec_Flow.

(** Sessions whose next step can fail with [x] after it has written something: clients that
    write their message piece by piece while they ask the application, and servers that ask the
    application to validate after they have written. *)
Definition writes_early (m : mech) (x : serr) : Prop :=
  match m with
  | XPlainC | XXOAuth2C OcInitial | XOAuthBearerC OcInitial => True
  | XGssapiC GcInitial | XGssapiC (GcPending _) => True
  | XXOAuth2S OsInitial | XOAuthBearerS OsInitial | XScramS _ (Some (SsClientFinal _)) =>
      exists v, x = EValidation v
  | _ => False
  end.

(** Between [s] and [s'] the application answered a request for [q] with [v]. *)
Definition answered (q : prop) (v : pval q) (s s' : session) : Prop :=
  exists evs, new_events s s' evs /\ In v (answers q evs).

(** The key-value pairs of an OAUTHBEARER message (RFC 7628, 3.1). *)
Definition kv_text (kv : list (bytes * bytes)) : bytes :=
  concat (map (fun p => chr 1 :: fst p ++ "="%char :: snd p) kv).

(** A validation callback that accepts everything. *)
Definition accepting (vcb : validator_of) : Prop := forall tr sd c, vcb tr sd c = VRet None.
