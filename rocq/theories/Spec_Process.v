(** Vocabulary for C106: many sessions in one program, and one session alone. *)
From Verif Require Import Bytes Types World Scram Session Spec_Random Process.

Definition schedule := list (nat * (env * call)).

(** Calls on many sessions, one after the other: what each of them gave ... *)
Fixpoint together (f : nat -> N) (p : process) (l : schedule) : list (nat * outcome) :=
  match l with
  | [] => []
  | (i, (e, c)) :: r => let '(o, p') := process_call f p i e c in (i, o) :: together f p' r
  end.
(** ... and the program afterwards. *)
Fixpoint finally (f : nat -> N) (p : process) (l : schedule) : process :=
  match l with
  | [] => p
  | (i, (e, c)) :: r => finally f (snd (process_call f p i e c)) r
  end.

(** The same for a single session that has a source of random numbers for itself. *)
Fixpoint alone (g : nat -> N) (s : session) (l : list (env * call)) : list outcome :=
  match l with
  | [] => []
  | (e, c) :: r => let '(o, s') := perform (set_rng e g) s c in o :: alone g s' r
  end.
Fixpoint alone_after (g : nat -> N) (s : session) (l : list (env * call)) : session :=
  match l with
  | [] => s
  | (e, c) :: r => alone_after g (snd (perform (set_rng e g) s c)) r
  end.

(** What concerns session [i]. *)
Definition those_of {X} (i : nat) (l : list (nat * X)) : list X :=
  map snd (filter (fun x => Nat.eqb (fst x) i) l).

(** A session that has not drawn any number yet. *)
Definition at_first (s : session) : session := mk_session (s_mech s) (s_trace s) 0 (s_val s).

Definition same_session (s s' : session) : Prop :=
  s_mech s = s_mech s' /\ s_trace s = s_trace s' /\ s_val s = s_val s'.

(** Every session has numbers of its own. *)
Definition own_places (place : nat -> nat -> nat) : Prop :=
  forall i j k l, place i k = place j l -> i = j /\ k = l.

(** The nonce made from the numbers at these places. *)
Definition nonce_at (f : nat -> N) (place : nat -> nat) : bytes :=
  map (fun k => pick (f (place k))) (seq 0 24).
