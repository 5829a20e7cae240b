(** Specification vocabulary for the size of a server's answers. *)
From Verif Require Import Bytes Base64 Num Types World CallbackSpec Simple OAuth Scram Gssapi Session
  Spec_Simple.

(** Bytes the application gave away to be sent: the salt and the iteration count of a stored
    password as they are written, and the reports for a refused token. *)
Definition given (e : env) (ev : event) : nat :=
  match ev with
  | EvAnswer p v =>
      match p return pval p -> nat with
      | PScramStoredPassword => fun s => length (encode (st_salt s)) + length (fmt_u32 (st_iterations s))
      | PXOAuth2Validate => fun r => match r with Some report => length report | None => 0 end
      | POAuthBearerValidate =>
          fun r => match r with Some report => length (e_json_to e report) | None => 0 end
      | _ => fun _ => 0
      end v
  | _ => 0
  end.
Definition supplied (e : env) (evs : list event) : nat := list_sum (map (given e) evs).

(** Server sessions of the mechanisms that make their messages themselves. *)
Definition serving (m : mech) : Prop :=
  match m with
  | XPlainS | XLoginS _ | XExternalS | XAnonymousS | XXOAuth2S _ | XOAuthBearerS _ | XScramS _ _ => True
  | _ => False
  end.

Definition size_of (input : option bytes) : nat :=
  match input with Some i => length i | None => 0 end.

(** What a step may write beyond that: LOGIN a prompt, SCRAM the nonce it was sent together with
    its own and the names of the attributes, later a signature. *)
Definition allowed (m : mech) (input : option bytes) : nat :=
  match m with
  | XLoginS _ => 10
  | XScramS _ (Some (SsClientFirst _)) => size_of input + 73
  | XScramS a (Some (SsClientFinal _)) => 2 + 4 * ((hlen a + 2) / 3)
  | _ => 0
  end.

(** A number of calls with any input, any writer and any result: how often data came, how many
    bytes came and how many were written. *)
Inductive traffic (e : env) (s : session) : nat -> nat -> nat -> session -> Prop :=
| tr_none : traffic e s 0 0 0 s
| tr_call n i o s1 input script r out s2 :
    traffic e s n i o s1 -> step e s1 input script = (r, out, s2) ->
    traffic e s (S n) (i + size_of input) (o + length out) s2.
