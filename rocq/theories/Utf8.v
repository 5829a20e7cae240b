(** [core::str::from_utf8]: exact set of accepted byte strings
    (Unicode Table 3-7, as implemented by core::str::validations). *)
From Verif Require Import Bytes.

Definition cont (b : byte) : bool := in_range 128 191 b.

Fixpoint utf8_valid (l : bytes) : bool :=
  match l with
  | [] => true
  | a :: r =>
      if in_range 0 127 a then utf8_valid r
      else if in_range 194 223 a then
        match r with
        | b :: r1 => cont b && utf8_valid r1
        | _ => false
        end
      else if in_range 224 239 a then
        match r with
        | b :: c :: r2 =>
            (if in_range 224 224 a then in_range 160 191 b
             else if in_range 237 237 a then in_range 128 159 b
             else cont b) && cont c && utf8_valid r2
        | _ => false
        end
      else if in_range 240 244 a then
        match r with
        | b :: c :: d :: r3 =>
            (if in_range 240 240 a then in_range 144 191 b
             else if in_range 244 244 a then in_range 128 143 b
             else cont b) && cont c && cont d && utf8_valid r3
        | _ => false
        end
      else false
  end.

(** [core::str::from_utf8(bytes)]; the error value is not inspected by rsasl. *)
Definition from_utf8 (l : bytes) : option bytes :=
  if utf8_valid l then Some l else None.
