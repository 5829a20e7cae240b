(** mechname.rs *)
From Verif Require Import Bytes.

(** mechname.rs:153-160 is_valid. *)
Definition mn_valid (b : byte) : bool :=
  in_range 65 90 b || in_range 48 57 b || beq b "-"%char || beq b "_"%char.

(** mechname.rs:162-176 MechanismNameError. *)
Inductive mnerr := MnTooShort | MnInvalidChar (index : nat) (value : byte).

(** mechname.rs:40-50: [iter().enumerate().try_for_each(..)]. *)
Fixpoint mn_check (i : nat) (l : bytes) : option mnerr :=
  match l with
  | [] => None
  | b :: r => if mn_valid b then mn_check (S i) r else Some (MnInvalidChar i b)
  end.

(** mechname.rs:36-52 Mechname::parse. *)
Definition mn_parse (l : bytes) : res mnerr bytes :=
  match l with
  | [] => Err MnTooShort
  | _ => match mn_check 0 l with
         | Some e => Err e
         | None => Ok l
         end
  end.
