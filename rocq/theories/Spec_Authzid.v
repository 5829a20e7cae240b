(** An application without an authorization identity (C125). *)
From Verif Require Import Bytes Types World CallbackSpec Simple OAuth Gssapi Session Spec_Decline.

(** The application has no authorization identity to give: it answers the request with the empty
    text, or not at all. *)
Definition without_identity (e : env) (o : option bytes) : Prop :=
  answers_with e PAuthzId o /\ (o = None \/ o = Some []).

(** The second application gives the empty authorization identity where the first gives none.
    Otherwise they are alike and do not look at what happened before. *)
Definition empty_for_none (e e' : env) : Prop :=
  withholds e PAuthzId /\ provides e' PAuthzId [] /\ e' = set_cb e (e_cb e') /\
  forall tr tr' sd c k, k <> RSatisfy PAuthzId -> e_cb e' tr' sd c k = e_cb e tr sd c k.

(** What the server's context says is no authorization identity. *)
Definition identity_absent (c : ctx) : Prop := get_ref c PAuthzId = None.
Definition identity_empty (c : ctx) : Prop := get_ref c PAuthzId = Some [].

(** The clients whose message is the same for an empty identity, and those that do not ask for one. *)
Definition no_mark (m : mech) : Prop :=
  match m with
  | XPlainC | XExternalC | XLoginC _ | XAnonymousC | XXOAuth2C _ | XGssapiC _ => True
  | _ => False
  end.
