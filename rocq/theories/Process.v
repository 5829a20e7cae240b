(** A program with many sessions, e.g. a server with many connections: sessions are independent values
    (session.rs:40-59; they share only the configuration, sasl.rs:148-165), the calls on them come in any
    order, and all of them draw from rand::thread_rng (scram/client.rs:467, scram/server.rs:215 and 437).
    Simplifications: calls are atomic, and the sources of several threads count as one, in the order of use. *)
From Verif Require Import Bytes Types World Session Spec_Random.

(** The methods of a session: session.rs:121-144 step, 228-245 step64, 183-189 encode, 206-212 decode,
    159-161 validation. *)
Inductive call :=
| CallStep (input : option bytes) (script : list wresp)
| CallStep64 (input : option bytes)
| CallEncode (input : bytes) (script : list wresp)
| CallDecode (input : bytes) (script : list wresp)
| CallValidation.

(** What the caller gets, and what the writer. *)
Inductive outcome :=
| OutStep (r : res serr state) (out : bytes)
| OutData (r : res serr nat) (out : bytes)
| OutValue (v : option bytes).

Definition perform (e : env) (s : session) (c : call) : outcome * session :=
  match c with
  | CallStep input script => match step e s input script with (r, out, s') => (OutStep r out, s') end
  | CallStep64 input => match step64 e s input with (r, out, s') => (OutStep r out, s') end
  | CallEncode input script => match session_encode e s input script with (r, out, s') => (OutData r out, s') end
  | CallDecode input script => match session_decode e s input script with (r, out, s') => (OutData r out, s') end
  | CallValidation => match validation s with (v, s') => (OutValue v, s') end
  end.

(** The sessions and the number of random numbers drawn so far. ([s_rng] of a session, which says where
    a session alone goes on, is overridden by the latter.) *)
Record process := mk_process { p_session : nat -> session; p_drawn : nat }.

(** The session [s] at the place [n] of the source. *)
Definition placed (s : session) (n : nat) : session := mk_session (s_mech s) (s_trace s) n (s_val s).

Definition set_session (p : process) (i : nat) (s : session) : process :=
  mk_process (fun j => if Nat.eqb j i then s else p_session p j) (s_rng s).

(** A call on session [i], with the application and surroundings as they are at that moment ([e]) and
    the program's source [f]. *)
Definition process_call (f : nat -> N) (p : process) (i : nat) (e : env) (c : call) : outcome * process :=
  match perform (set_rng e f) (placed (p_session p i) (p_drawn p)) c with
  | (o, s') => (o, set_session p i s')
  end.
