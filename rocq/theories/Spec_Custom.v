(** Vocabulary for statements about sessions with mechanisms of other crates. *)
From Verif Require Import Bytes Types World CallbackSpec Session Spec_Session Custom.

(** Any number of steps, with any input, writer and outcome. *)
Inductive csteps {T} (e : env) (m : custom T) : csession T -> csession T -> Prop :=
| cs_nil s : csteps e m s s
| cs_step s s1 s2 input script r out :
    cstep e m s input script = (r, out, s1) -> csteps e m s1 s2 -> csteps e m s s2.

(** How often the application was asked for a value for [q]. *)
Fixpoint requests (q : prop) (evs : list event) : nat :=
  match evs with
  | [] => 0
  | EvRequest p _ :: r => (if prop_eq_dec p q then 1 else 0) + requests q r
  | _ :: r => requests q r
  end.

(** The code of the mechanism itself never panics, whatever its calls return. *)
Fixpoint panic_free {T A} (p : prog T A) : Prop :=
  match p with
  | GDone r => r <> Panic
  | GGet k => forall t, panic_free (k t)
  | GSet _ k => panic_free k
  | GWrite _ k => forall x, panic_free (k x)
  | GWriteAll _ k => forall x, panic_free (k x)
  | GRandom k => forall x, panic_free (k x)
  | GNeed _ _ f k => (forall v, panic_free (f v)) /\ (forall x, panic_free (k x))
  | GChan _ _ f k => (forall v, panic_free (f v)) /\ (forall x, panic_free (k x))
  | GAction _ _ _ k => forall x, panic_free (k x)
  | GValidate _ k => forall x, panic_free (k x)
  end.

(** The code of the mechanism returns the error [bad] only if one of its calls did. *)
Fixpoint passes_on {T A} (bad : serr) (p : prog T A) : Prop :=
  match p with
  | GDone r => r <> Err bad
  | GGet k => forall t, passes_on bad (k t)
  | GSet _ k => passes_on bad k
  | GWrite _ k => forall x, passes_on bad (k x)
  | GWriteAll _ k => forall x, x <> Some bad -> passes_on bad (k x)
  | GRandom k => forall x, passes_on bad (k x)
  | GNeed _ _ f k => (forall v, passes_on bad (f v)) /\
                     (forall x, x <> inl bad -> passes_on bad (k x))
  | GChan _ _ f k => (forall v, passes_on bad (f v)) /\
                     (forall x, x <> inl bad -> passes_on bad (k x))
  | GAction _ _ _ k => forall x, x <> Some bad -> passes_on bad (k x)
  | GValidate _ k => forall x, x <> Some bad -> passes_on bad (k x)
  end.

(** A session with a built-in mechanism and one with [p] are in the same state. *)
Definition same_session {T} (wrap : T -> mech) (c : csession T) (s : session) : Prop :=
  s_mech s = wrap (cs_state c) /\ s_trace s = cs_trace c /\ s_rng s = cs_rng c /\ s_val s = cs_val c.

(** Code that does what the built-in mechanism with the states [wrap t] does. *)
Definition stands_for {T} (e : env) (p : custom T) (wrap : T -> mech) : Prop :=
  forall c s input script r out s', same_session wrap c s -> step e s input script = (r, out, s') ->
  exists c', cstep e p c input script = (r, out, c') /\ same_session wrap c' s'.
