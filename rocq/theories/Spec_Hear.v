(** Specification vocabulary for what a program of the interop crate has read. *)
From Verif Require Import Bytes Interop.

(** Whatever the other side does: from [s] on the program reads these lines, one after the
    other, and ends with [r]. *)
Inductive hears {S R} (prog : S -> act S R) : S -> list lineres -> R -> Prop :=
| hears_exit s r : prog s = AExit r -> hears prog s [] r
| hears_write s b k ls r : prog s = AWrite b k -> hears prog k ls r -> hears prog s ls r
| hears_line s k l ls r : prog s = ALine k -> hears prog (k l) ls r -> hears prog s (l :: ls) r.

(** Nowhere in [w] is there a whitespace character. *)
Definition unbroken (w : bytes) : Prop := forall pre r, w = pre ++ r -> ws_len r = 0.
