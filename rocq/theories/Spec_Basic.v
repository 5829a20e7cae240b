(** Specification vocabulary for names, contexts and writers. *)
From Verif Require Import Bytes Types World.

(** A-Z, 0-9, '-' and '_'. *)
Definition name_byte (b : byte) : Prop :=
  let n := N_of_ascii b in
  (65 <= n <= 90)%N \/ (48 <= n <= 57)%N \/ n = 45%N \/ n = 95%N.

(** [b] at index [i] is the first byte of [l] that may not be in a mechanism name. *)
Definition first_offender (l : bytes) (i : nat) (b : byte) : Prop :=
  nth_error l i = Some b /\ ~ name_byte b /\
  forall j c, j < i -> nth_error l j = Some c -> name_byte c.

(** [v] is the first value for [q] in a sequence of provider entries. *)
Definition first_entry (c : ctx) (q : prop) (v : pval q) : Prop :=
  exists a b, c = a ++ mk_entry q v :: b /\ Forall (fun x => projT1 x <> q) a.

(** A writer that takes at least one byte whenever it is called and never fails. *)
Definition willing (s : list wresp) : Prop := Forall (fun r => exists n, r = WAccept (S n)) s.
