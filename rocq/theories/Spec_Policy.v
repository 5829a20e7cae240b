(** Vocabulary for C83: salt and iteration count of the server. *)
From Verif Require Import Bytes Types World CallbackSpec Session Spec_Session Spec_Scram.

(** The properties from which a SCRAM client makes its keys. *)
Definition key_property (q : prop) : Prop :=
  q = PScramCachedPassword \/ q = PSaltedPassword \/ q = PPassword.

(** Every request among [evs] is for keys, and is made in a context that shows this salt and count. *)
Definition shown (salt : bytes) (n : N) (evs : list event) : Prop :=
  forall q c, In (EvRequest q c) evs -> key_property q /\ offers_salt c salt n.

(** The application gave no key. *)
Definition declined (evs : list event) : Prop :=
  answers PScramCachedPassword evs = [] /\ answers PSaltedPassword evs = [] /\ answers PPassword evs = [].

(** What RFC 7677 and RFC 5802 recommend: a salt, and at least 4096 iterations. *)
Definition recommended (salt : bytes) (n : N) : Prop := salt <> [] /\ (4096 <= n)%N.
