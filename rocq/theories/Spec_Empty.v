(** Empty names and secrets (C126). *)
From Verif Require Import Bytes Types World Simple OAuth Scram Session.

(** What a context hands to the application is the empty text. *)
Definition empty_name (c : ctx) : Prop := get_ref c PAuthId = Some ([] : bytes).
Definition empty_password (c : ctx) : Prop := get_ref c PPassword = Some ([] : bytes).
Definition empty_token (c : ctx) : Prop := get_ref c POAuthBearerToken = Some ([] : bytes).

(** The clients that ask their application for a name in this state. *)
Definition asks_name (m : mech) : Prop :=
  match m with
  | XPlainC | XLoginC LcAuthid | XXOAuth2C OcInitial | XScramC _ (Some (ScInitial _)) => True
  | _ => False
  end.
