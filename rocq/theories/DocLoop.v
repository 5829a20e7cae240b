(** The example of the crate's documentation, lib.rs:123-172: a client that authenticates. *)
From Verif Require Import Bytes Types World Simple OAuth Scram Gssapi Session Registry.

(** How it ends: a panic of [expect], with the error it reports, a panic inside the library, or
    after the loop. [DocWaits]: it waits for data that has not arrived yet. *)
Inductive doc_result :=
| DocNotStarted (x : sasl_err)
| DocErrored (x : serr)
| DocPanicked
| DocDone (st : state)
| DocWaits.

(** session.rs:463-466 State::is_running. *)
Definition is_running (st : state) : bool := match st with Running => true | Finished _ => false end.

(** lib.rs:153-166: the loop. [more]: what [get_more_auth_data] returns, one call after the other,
    each with the behaviour of the writer in the step that follows. Returned are also the bytes the
    writer received and the session. *)
Fixpoint doc_loop (e : env) (s : session) (data : option bytes) (script : list wresp)
    (more : list (option bytes * list wresp)) : doc_result * bytes * session :=
  match step e s data script with
  | (Ok st, out, s') =>
      if is_running st then
        match more with
        | [] => (DocWaits, out, s')
        | (data', script') :: more' =>
            match doc_loop e s' data' script' more' with
            | (r, rest, s'') => (r, out ++ rest, s'')
            end
        end
      else (DocDone st, out, s')
  | (Err x, out, s') => (DocErrored x, out, s')
  | (Panic, out, s') => (DocPanicked, out, s')
  end.

(** lib.rs:132-169 sasl_authenticate, for any list of offered mechanisms. [initial]: what
    [get_initial_auth_data] returns. [tell_other_side_which] is not modelled. None: the configuration
    selected a custom mechanism. *)
Definition sasl_authenticate (e : env) (reg : list mechanism) (cb : bool) (prefer : preference)
    (offered : list bytes) (initial : bytes) (script : list wresp)
    (more : list (option bytes * list wresp)) : option (doc_result * bytes * option session) :=
  match client_start reg cb prefer offered with
  | Err x => Some (DocNotStarted x, [], None)
  | Panic => Some (DocPanicked, [], None)
  | Ok (Foreign _, _) => None
  | Ok (Builtin m, d) =>
      let data := if are_we_first SClient d then None else Some initial in
      match doc_loop e (mk_session m [] 0 None) data script more with
      | (r, out, s) => Some (r, out, Some s)
      end
  end.

(** lib.rs:135. *)
Definition doc_offered : list bytes := [lit "PLAIN"; lit "GSSAPI"].
