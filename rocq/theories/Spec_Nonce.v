(** How nonces are drawn (C111). *)
From Coq Require Import NArith.
From Verif Require Import Bytes Types World Scram Session Spec_Random.

(** The printable characters up to "y" without the comma; RFC 5802 allows all up to "~". *)
Definition drawn_char (b : byte) : Prop := (33 <= N_of_ascii b <= 121)%N /\ b <> ","%char.

(** A random generator that gives indices into a list of [n] elements at each of the [k] places from
    [i] on. *)
Definition indices (f : nat -> N) (n : N) (i k : nat) : Prop := forall j, i <= j < i + k -> (f j < n)%N.

(** Two generators give the same numbers there. *)
Definition same_draws (f g : nat -> N) (i k : nat) : Prop := forall j, i <= j < i + k -> f j = g j.
