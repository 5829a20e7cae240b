(** The encodings the mechanisms rest on, stated from the standards and not from the model's
    tables: base64 (RFC 4648 section 4), decimal numbers, exclusive or. *)
From Coq Require Import List Bool NArith Ascii.
From Verif Require Import Bytes.
Import ListNotations.

(** The bits of a byte, most significant first. *)
Definition bits_of (b : byte) : list bool := map (N.testbit (N_of_ascii b)) [7; 6; 5; 4; 3; 2; 1; 0]%N.

(** The number with these bits, most significant first. *)
Definition number_of_bits (l : list bool) : N :=
  fold_left (fun n (b : bool) => (2 * n + if b then 1 else 0)%N) l 0%N.

(** RFC 4648 table 1. *)
Definition rfc_digit (n : N) : byte :=
  ascii_of_N (if N.ltb n 26 then 65 + n
              else if N.ltb n 52 then 97 + (n - 26)
              else if N.ltb n 62 then 48 + (n - 52)
              else if N.eqb n 62 then 43 else 47)%N.

(** Six bits at a time, the last group filled up with zero bits. *)
Fixpoint groups (l : list bool) : list (list bool) :=
  match l with
  | a :: b :: c :: d :: e :: f :: r => [a; b; c; d; e; f] :: groups r
  | [] => []
  | _ => [firstn 6 (l ++ repeat false 6)]
  end.

(** RFC 4648 section 4: the digits, then as many "=" as make a multiple of four. *)
Definition rfc_encode (b : bytes) : bytes :=
  let digits := map (fun g => rfc_digit (number_of_bits g)) (groups (flat_map bits_of b)) in
  digits ++ repeat "="%char (Nat.modulo (4 - Nat.modulo (length digits) 4) 4).

(** Decimal notation. *)
Definition decimal_digit (b : byte) : Prop := (48 <= N_of_ascii b <= 57)%N.
Definition decimal_value (l : bytes) : N :=
  fold_left (fun n b => (10 * n + (N_of_ascii b - 48))%N) l 0%N.
(** The usual notation: no superfluous zero in front. *)
Definition decimal (l : bytes) (n : N) : Prop :=
  l <> [] /\ Forall decimal_digit l /\ decimal_value l = n /\
  (forall r, l = "0"%char :: r -> r = []).

(** Exclusive or, as far as both texts go. *)
Definition xor_text (x y : bytes) : bytes :=
  map (fun p => ascii_of_N (N.lxor (N_of_ascii (fst p)) (N_of_ascii (snd p)))) (combine x y).

(** ** UTF-8 (RFC 3629) *)

(** Unicode scalar values: code points that are no surrogates. *)
Definition scalar (n : N) : Prop := (n < 55296 \/ (57344 <= n /\ n < 1114112))%N.
Definition utf8_char (n : N) : bytes :=
  (if n <? 128 then [chr n]
   else if n <? 2048 then [chr (192 + n / 64); chr (128 + n mod 64)]
   else if n <? 65536 then [chr (224 + n / 4096); chr (128 + n / 64 mod 64); chr (128 + n mod 64)]
   else [chr (240 + n / 262144); chr (128 + n / 4096 mod 64); chr (128 + n / 64 mod 64);
         chr (128 + n mod 64)])%N.
Definition utf8_text (l : bytes) : Prop :=
  exists cps, Forall scalar cps /\ l = flat_map utf8_char cps.
