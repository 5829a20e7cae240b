(** Byte strings and the slice operations of the Rust core library used by rsasl.

    [u8] is [ascii]; [[u8]], [Vec<u8>], [str], [String] are [list ascii].
    A Rust [&str] is represented by its UTF-8 bytes. *)
From Coq Require Export String Ascii Bool Arith NArith List.
Export ListNotations.

Definition byte := ascii.
Definition bytes := list ascii.

(** Literal [b"..."]. *)
Definition lit (s : string) : bytes := list_ascii_of_string s.

(** A byte given by its number. *)
Definition chr (n : N) : byte := ascii_of_N n.

Definition beq (a b : byte) : bool := Ascii.eqb a b.

(** [lo..=hi] range pattern on [u8]. *)
Definition in_range (lo hi : N) (b : byte) : bool :=
  N.leb lo (N_of_ascii b) && N.leb (N_of_ascii b) hi.

(** [a == b] on slices. *)
Fixpoint bytes_eqb (a b : bytes) : bool :=
  match a, b with
  | [], [] => true
  | x :: a', y :: b' => beq x y && bytes_eqb a' b'
  | _, _ => false
  end.

(** [slice::contains] / [str::contains(char)] for an ASCII character. *)
Definition contains (c : byte) (l : bytes) : bool := existsb (beq c) l.

(** [slice::split]: always yields at least one piece. *)
Fixpoint split (p : byte -> bool) (l : bytes) : list bytes :=
  match l with
  | [] => [[]]
  | x :: r =>
      if p x then [] :: split p r
      else match split p r with
           | h :: t => (x :: h) :: t
           | [] => [[x]]
           end
  end.

(** [slice::strip_prefix]. *)
Fixpoint strip_prefix (p l : bytes) : option bytes :=
  match p, l with
  | [], _ => Some l
  | x :: p', y :: l' => if beq x y then strip_prefix p' l' else None
  | _ :: _, [] => None
  end.

(** [slice::strip_suffix]. *)
Definition strip_suffix (s l : bytes) : option bytes :=
  match strip_prefix (rev s) (rev l) with
  | Some r => Some (rev r)
  | None => None
  end.

(** [iter().position(|b| *b == c)] followed by [split_at]: the part before the first
    [c] and the rest starting with [c]. *)
Fixpoint split_at_byte (c : byte) (l : bytes) : option (bytes * bytes) :=
  match l with
  | [] => None
  | x :: r =>
      if beq c x then Some ([], l)
      else match split_at_byte c r with
           | Some (a, b) => Some (x :: a, b)
           | None => None
           end
  end.

(** Byte-wise XOR, [zip().map(|(x, y)| x ^ y)]. *)
Definition xorb8 (a b : byte) : byte :=
  let (a0, a1, a2, a3, a4, a5, a6, a7) := a in
  let (b0, b1, b2, b3, b4, b5, b6, b7) := b in
  Ascii (xorb a0 b0) (xorb a1 b1) (xorb a2 b2) (xorb a3 b3)
        (xorb a4 b4) (xorb a5 b5) (xorb a6 b6) (xorb a7 b7).

Fixpoint xor_zip (a b : bytes) : bytes :=
  match a, b with
  | x :: a', y :: b' => xorb8 x y :: xor_zip a' b'
  | _, _ => []
  end.

(** Outcome of an operation that may fail or panic. *)
Inductive res (E A : Type) : Type :=
| Ok (a : A)
| Err (e : E)
| Panic.
Arguments Ok {E A}. Arguments Err {E A}. Arguments Panic {E A}.

Definition rbind {E A B} (x : res E A) (f : A -> res E B) : res E B :=
  match x with Ok a => f a | Err e => Err e | Panic => Panic end.

Definition rmap_err {E E' A} (f : E -> E') (x : res E A) : res E' A :=
  match x with Ok a => Ok a | Err e => Err (f e) | Panic => Panic end.

(** [opt.ok_or(e)]. *)
Definition ok_or {E A} (o : option A) (e : E) : res E A :=
  match o with Some a => Ok a | None => Err e end.

(** [&x[0..2]] together with [&x[2..]]: indexing panics on fewer than two bytes. *)
Definition slice2 {E} (l : bytes) : res E (bytes * bytes) :=
  match l with
  | a :: b :: r => Ok ([a; b], r)
  | _ => Panic
  end.

(** [x[0]]. *)
Definition index0 {E} (l : bytes) : res E byte :=
  match l with a :: _ => Ok a | [] => Panic end.
