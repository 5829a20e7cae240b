(** The main functions of /repo/examples. *)
From Verif Require Import Bytes Types World Simple Session Registry ChannelBindings Apps Api DocLoop.

(** How a program ends: it has printed what it was written for, or a panic (of [expect], [unwrap],
    [assert_eq!], [panic!] or inside the library) has ended it. *)
Inductive ended (A : Type) := Printed (x : A) | Panicked.
Arguments Printed {A} x. Arguments Panicked {A}.

(** ** server_scram.rs *)

(** examples/server_scram.rs:102-123: the configuration of the server. *)
Definition scram_main_config (e : env) : config :=
  with_callback (with_defaults builder_new)
    (mk_callback (scram_app_cb (scram_app_stored e)) scram_app_vcb default_prefer false).

(** examples/server_scram.rs:147-159: the loop. [e1]: the surroundings of the client, [e2]: of the
    server; a Cursor over a Vec accepts everything. None: not ended after so many rounds. *)
Fixpoint scram_main_loop (e1 e2 : env) (client server : psession) (client_out : bytes) (rounds : nat)
  : option (ended (option bytes)) :=
  match rounds with
  | 0 => None
  | S rounds' =>
      match ps_step e2 server (Some client_out) [] with
      | Some (Ok st, server_out, server') =>
          match ps_step e1 client (Some server_out) [] with
          | Some (Ok _, client_out', client') =>
              if is_running st then scram_main_loop e1 e2 client' server' client_out' rounds'
              else Some (Printed (ps_validation server'))
          | _ => Some Panicked
          end
      | _ => Some Panicked
      end
  end.

(** examples/server_scram.rs:125-162 main, with the credentials it invites to change. *)
Definition scram_main (e1 e2 : env) (authid password : bytes) (rounds : nat)
  : option (ended (option bytes)) :=
  match server_start_suggested (sasl_new (scram_main_config e2) test_validation) (lit "SCRAM-SHA-256") with
  | Ok server =>
      match client_start_suggested (sasl_new (config_with_credentials None authid password) 0)
              [lit "SCRAM-SHA-256"] with
      | Ok client =>
          match ps_step e1 client None [] with
          | Some (Ok _, client_out, client') => scram_main_loop e1 e2 client' server client_out rounds
          | _ => Some Panicked
          end
      | _ => Some Panicked
      end
  | _ => Some Panicked
  end.

(** ** server_plain.rs *)

(** error.rs:111-114. *)
Definition is_mechanism_error (x : serr) : bool := match x with EMech _ => true | _ => false end.

(** What an exchange is to end with: [Some v]: State::Finished(MessageSent::No) and this
    validation; None: an error of the mechanism. *)
Definition expectation := option verdict.

(** examples/server_plain.rs:91-94. *)
Definition plain_main_config : config :=
  with_callback (with_defaults builder_new) (mk_callback default_cb plain_app_vcb default_prefer false).

(** examples/server_plain.rs:96-108, 109-121, 123-134, 136-147 and 148-159: one exchange, and 162-173
    print_outcome. *)
Definition plain_exchange (e : env) (message : bytes) (expected : expectation) : ended unit :=
  match server_start_suggested (sasl_new plain_main_config test_validation) (lit "PLAIN") with
  | Ok session =>
      match ps_step e session (Some message) [] with
      | Some (Ok (Finished false), _, session') =>
          match expected with
          | Some v =>
              match ps_validation session' with
              | Some x => if bytes_eqb x (verdict_value v) then Printed tt else Panicked
              | None => Panicked
              end
          | None => Panicked
          end
      | Some (Err x, _, _) =>
          match expected with
          | Some _ => Panicked
          | None => if is_mechanism_error x then Printed tt else Panicked
          end
      | _ => Panicked
      end
  | _ => Panicked
  end.

(** examples/server_plain.rs:104-158: the five messages and what is asserted of them. *)
Definition plain_main_cases : list (bytes * expectation) :=
  [ (nul :: lit "username" ++ nul :: lit "secret", Some (Accepted (lit "username")));
    (nul :: lit "username" ++ nul :: lit "badpass", Some PasswdBad);
    (nul :: lit "somebody" ++ nul :: lit "somepass", Some NoSuchUser);
    (lit "username" ++ nul :: lit "somebody" ++ nul :: lit "badpass", Some AuthzBad);
    (nul :: lit "username badpass", None) ].

(** examples/server_plain.rs:90-160 main: one exchange after the other, until one panics. *)
Fixpoint plain_main_from (e : env) (cases : list (bytes * expectation)) : ended unit :=
  match cases with
  | [] => Printed tt
  | (message, expected) :: rest =>
      match plain_exchange e message expected with
      | Printed _ => plain_main_from e rest
      | Panicked => Panicked
      end
  end.
Definition plain_main (e : env) : ended unit := plain_main_from e plain_main_cases.

(** ** client_simple.rs *)

(** examples/client_simple.rs:29-58: after the two lines have been read. Printed are the bytes. *)
Definition client_main (e : env) (username password : bytes) : ended bytes :=
  match client_start_suggested (sasl_new (config_with_credentials None username password) 0)
          [lit "PLAIN"] with
  | Ok session =>
      match ps_step e session None [] with
      | Some (Ok (Finished true), out, _) => Printed out
      | _ => Panicked
      end
  | _ => Panicked
  end.

(** ** mechanism_selection.rs *)

(** examples/mechanism_selection.rs:3-18, for any list and any assertion. *)
Definition selection_main (presented : list bytes) (expected : bytes) : ended bytes :=
  match client_start_suggested (sasl_new (config_with_credentials None [] []) 0) presented with
  | Ok session => if bytes_eqb (get_mechname session) expected then Printed (get_mechname session) else Panicked
  | _ => Panicked
  end.
