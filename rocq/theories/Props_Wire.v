(** C22, C56. *)
From Coq Require Import List NArith Ascii.
From Verif Require Import Bytes Base64 Num Spec_Wire Proof_Wire.
Import ListNotations.

(** C22: the encoder is the one of RFC 4648, and the decoder accepts nothing else. *)
Theorem C22_encode_rfc4648 : forall b,
  encode b = rfc_encode b.
Proof. exact encode_rfc. Qed.
Print Assumptions C22_encode_rfc4648.
Theorem C22_decode_rfc4648 : forall s b,
  decode s = Some b <-> s = rfc_encode b.
Proof. exact decode_rfc. Qed.
Print Assumptions C22_decode_rfc4648.

Example C22_rfc4648_example :
  rfc_encode (lit "fo") = lit "Zm8=" /\ rfc_encode (lit "foobar") = lit "Zm9vYmFy" /\
  rfc_encode [chr 251; chr 255] = lit "+/8=".
Proof. vm_compute. repeat split; reflexivity. Qed.

(** C56: a number is written in its one usual decimal notation. *)
Theorem C56_written : forall l n,
  l = fmt_u32 n <-> decimal l n.
Proof. exact fmt_u32_exact. Qed.
Print Assumptions C56_written.

(** C56 is false as stated: "+4096" is read, which RFC 5802 does not allow. *)
Theorem C56_posit_refuted : ~ forall l n, parse_u32 l = Some n -> decimal l n.
Proof. exact parse_not_posit. Qed.
Print Assumptions C56_posit_refuted.

(** C56: read are exactly the decimal notations of numbers up to 2^32-1, also with superfluous
    zeros and a plus sign in front. Missing:
    that these two liberties are refused. *)
Theorem C56_read_partial : forall l n,
  parse_u32 l = Some n <->
  exists d, (l = d \/ l = "+"%char :: d) /\ d <> [] /\ Forall decimal_digit d /\
    n = decimal_value d /\ (n < 2 ^ 32)%N.
Proof. exact parse_u32_iff. Qed.
Print Assumptions C56_read_partial.

(** C56: what was written is read back. *)
Theorem C56_read_back : forall n,
  (n < 2 ^ 32)%N -> parse_u32 (fmt_u32 n) = Some n.
Proof. exact parse_written. Qed.
Print Assumptions C56_read_back.

Example C56_example :
  decimal (lit "4096") 4096 /\ fmt_u32 4096 = lit "4096" /\
  map parse_u32 [lit "4096"; lit "+04096"; lit "4294967295"; lit "4294967296"; lit "-1"; lit "+"; lit "1a"; []]
  = [Some 4096; Some 4096; Some 4294967295; None; None; None; None; None]%N.
Proof.
  split; [|split; vm_compute; reflexivity].
  apply fmt_u32_exact. vm_compute. reflexivity.
Qed.
