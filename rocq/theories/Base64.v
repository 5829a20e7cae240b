(** base64 0.22.1 [engine::general_purpose::STANDARD]: standard alphabet, padding
    written when encoding and required when decoding, non-zero trailing bits rejected.
    Third-party code, modelled exactly (used at session.rs:228-245,
    scram/client.rs:227,288,358,420, scram/server.rs:184,215,301,318,348). *)
From Verif Require Import Bytes.

(** Six bits, most significant first. *)
Definition six := (bool * bool * bool * bool * bool * bool)%type.

Definition n_of_six (s : six) : N :=
  let '(a, b, c, d, e, f) := s in
  let w (x : bool) (k : N) := if x then k else 0%N in
  (w a 32 + w b 16 + w c 8 + w d 4 + w e 2 + w f 1)%N.

Definition alphabet : bytes :=
  lit "ABCDEFGHIJKLMNOPQRSTUVWXYZabcdefghijklmnopqrstuvwxyz0123456789+/".

Definition pad : byte := "="%char.

Definition enc_six (s : six) : byte := nth (N.to_nat (n_of_six s)) alphabet zero.

Definition bools : list bool := [false; true].
Definition all_six : list six :=
  flat_map (fun a => flat_map (fun b => flat_map (fun c => flat_map (fun d =>
  flat_map (fun e => map (fun f => (a, b, c, d, e, f)) bools) bools) bools) bools) bools) bools.

(** Inverse of the alphabet table. *)
Definition dec_six (c : byte) : option six :=
  find (fun s => beq (enc_six s) c) all_six.

(** [Ascii] stores the least significant bit first. *)
Definition enc3 (x y z : byte) : bytes :=
  let (x0, x1, x2, x3, x4, x5, x6, x7) := x in
  let (y0, y1, y2, y3, y4, y5, y6, y7) := y in
  let (z0, z1, z2, z3, z4, z5, z6, z7) := z in
  [enc_six (x7, x6, x5, x4, x3, x2); enc_six (x1, x0, y7, y6, y5, y4);
   enc_six (y3, y2, y1, y0, z7, z6); enc_six (z5, z4, z3, z2, z1, z0)].

Definition enc2 (x y : byte) : bytes :=
  let (x0, x1, x2, x3, x4, x5, x6, x7) := x in
  let (y0, y1, y2, y3, y4, y5, y6, y7) := y in
  [enc_six (x7, x6, x5, x4, x3, x2); enc_six (x1, x0, y7, y6, y5, y4);
   enc_six (y3, y2, y1, y0, false, false); pad].

Definition enc1 (x : byte) : bytes :=
  let (x0, x1, x2, x3, x4, x5, x6, x7) := x in
  [enc_six (x7, x6, x5, x4, x3, x2); enc_six (x1, x0, false, false, false, false); pad; pad].

(** [Engine::encode]. *)
Fixpoint encode (l : bytes) : bytes :=
  match l with
  | [] => []
  | [x] => enc1 x
  | [x; y] => enc2 x y
  | x :: y :: z :: r => enc3 x y z ++ encode r
  end.

Definition dec4 (a b c d : byte) : option bytes :=
  match dec_six a, dec_six b, dec_six c, dec_six d with
  | Some (a5, a4, a3, a2, a1, a0), Some (b5, b4, b3, b2, b1, b0),
    Some (c5, c4, c3, c2, c1, c0), Some (d5, d4, d3, d2, d1, d0) =>
      Some [Ascii b4 b5 a0 a1 a2 a3 a4 a5; Ascii c2 c3 c4 c5 b0 b1 b2 b3;
            Ascii d0 d1 d2 d3 d4 d5 c0 c1]
  | _, _, _, _ => None
  end.

Definition dec3 (a b c : byte) : option bytes :=
  match dec_six a, dec_six b, dec_six c with
  | Some (a5, a4, a3, a2, a1, a0), Some (b5, b4, b3, b2, b1, b0),
    Some (c5, c4, c3, c2, false, false) =>
      Some [Ascii b4 b5 a0 a1 a2 a3 a4 a5; Ascii c2 c3 c4 c5 b0 b1 b2 b3]
  | _, _, _ => None
  end.

Definition dec2 (a b : byte) : option bytes :=
  match dec_six a, dec_six b with
  | Some (a5, a4, a3, a2, a1, a0), Some (b5, b4, false, false, false, false) =>
      Some [Ascii b4 b5 a0 a1 a2 a3 a4 a5]
  | _, _ => None
  end.

(** The last quantum: with one, two or no padding characters. *)
Definition dec_last (a b c d : byte) : option bytes :=
  if beq d pad then (if beq c pad then dec2 a b else dec3 a b c) else dec4 a b c d.

(** [Engine::decode]; the error value is not inspected by rsasl. *)
Fixpoint decode (l : bytes) : option bytes :=
  match l with
  | [] => Some []
  | a :: b :: c :: d :: r =>
      match r with
      | [] => dec_last a b c d
      | _ => match dec4 a b c d, decode r with
             | Some x, Some y => Some (x ++ y)
             | _, _ => None
             end
      end
  | _ => None
  end.

(** [Engine::decode_slice(input, &mut out)] with a zero-initialised [out] of length [n]:
    error if the data does not fit, otherwise the data is followed by the zeros that were
    there. (base64 0.22.1 reports OutputSliceTooSmall exactly if the decoded data does not
    fit.) *)
Definition decode_slice (l : bytes) (n : nat) : option bytes :=
  match decode l with
  | Some d => if Nat.leb (length d) n then Some (d ++ repeat zero (n - length d)) else None
  | None => None
  end.
