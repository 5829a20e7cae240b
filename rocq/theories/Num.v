(** Formatting and parsing of [u32]: [format!("{iterations}")] (scram/server.rs:183) and
    [str::parse::<u32>()] (scram/client.rs:282-285). *)
From Verif Require Import Bytes.

Definition u32_max : N := 4294967295.

Definition digit (n : N) : byte := ascii_of_N (48 + n).

(** Digits of [n], most significant first; [fuel] bounds the number of digits. *)
Fixpoint fmt_fuel (fuel : nat) (n : N) (acc : bytes) : bytes :=
  match fuel with
  | O => acc
  | S f => let acc' := digit (N.modulo n 10) :: acc in
           if N.ltb n 10 then acc' else fmt_fuel f (N.div n 10) acc'
  end.

(** [N.size_nat n] binary digits are an upper bound for the number of decimal digits. *)
Definition fmt_u32 (n : N) : bytes := fmt_fuel (S (N.size_nat n)) n [].

Definition digit_val (c : byte) : option N :=
  if in_range 48 57 c then Some (N_of_ascii c - 48)%N else None.

Fixpoint parse_digits (l : bytes) (acc : N) : option N :=
  match l with
  | [] => Some acc
  | c :: r =>
      match digit_val c with
      | Some d => let v := (acc * 10 + d)%N in
                  if N.leb v u32_max then parse_digits r v else None
      | None => None
      end
  end.

(** core::num::from_str_radix for u32: empty string and a lone sign are errors, one
    leading '+' is allowed, overflow is an error. *)
Definition parse_u32 (l : bytes) : option N :=
  match l with
  | [] => None
  | c :: r => if beq c "+"%char
              then match r with [] => None | _ => parse_digits r 0 end
              else parse_digits l 0
  end.
