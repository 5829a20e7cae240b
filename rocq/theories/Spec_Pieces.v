(** Specification vocabulary for writers that take their time (C119). *)
From Verif Require Import Bytes Types World Spec_Flow.

(** A writer that takes at least one byte each time, or reports that it was interrupted, for which
    std::io::Write says to try again. *)
Definition patient (s : list wresp) : Prop :=
  Forall (fun r => r = WInterrupt \/ exists n, r = WAccept (S n)) s.
(** The same inputs, with a writer that takes everything. *)
Definition undisturbed (l : list (option bytes * list wresp)) : list (option bytes * list wresp) :=
  map (fun p => (fst p, [])) l.
