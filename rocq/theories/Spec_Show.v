(** Specification vocabulary for whitespace in the lines of the interop crate and for the way
    bytes are shown that are no text. *)
From Coq Require Import NArith.
From Verif Require Import Bytes Spec_Wire.

(** The code points with the Unicode property White_Space. *)
Definition blank (n : N) : Prop :=
  (9 <= n <= 13 \/ n = 32 \/ n = 133 \/ n = 160 \/ n = 5760 \/ 8192 <= n <= 8202 \/ n = 8232
   \/ n = 8233 \/ n = 8239 \/ n = 8287 \/ n = 12288)%N.
Definition inked (n : N) : Prop := scalar n /\ ~ blank n.

(** The text with these code points. *)
Definition text (cps : list N) : bytes := flat_map utf8_char cps.

(** The text [cps] consists of the words [ws] and whitespace before, between and after them. *)
Inductive parted : list N -> list (list N) -> Prop :=
| parted_none : parted [] []
| parted_blank n cps ws : blank n -> parted cps ws -> parted (n :: cps) ws
| parted_word w cps ws : w <> [] -> Forall inked w ->
    (cps = [] \/ exists n r, cps = n :: r /\ blank n) -> parted cps ws -> parted (w ++ cps) (w :: ws).

(** The numbers of the bytes, with a comma and a space between them. *)
Inductive numbers : bytes -> bytes -> Prop :=
| numbers_one c d : decimal d (N_of_ascii c) -> numbers [c] d
| numbers_more c d b t : decimal d (N_of_ascii c) -> numbers b t ->
    numbers (c :: b) (d ++ lit ", " ++ t).
