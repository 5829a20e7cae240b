(** Vocabulary for C114: what is displayed of errors. *)
From Verif Require Import Bytes Types World Scram Session Display.

(** One line of ASCII text. *)
Definition printable (t : bytes) : Prop :=
  Forall (fun b => (32 <= N_of_ascii b <= 126)%N) t.

(** The application and the libraries display their own errors as such. *)
Definition printable_texts (T : texts) : Prop :=
  (forall n t, tx_boxed T n t -> printable t) /\ (forall t, tx_prep T t -> printable t) /\
  (forall t, tx_gss T t -> printable t).

(** A SCRAM client before its first message. *)
Definition begins_scram (s : session) : Prop :=
  exists a plus, s_mech s = XScramC a (Some (ScInitial plus)).

(** scram/parser.rs:204: characters of names of channel bindings (RFC 5056 section 7). *)
Definition name_char (b : byte) : Prop :=
  b = "."%char \/ b = "-"%char \/ (48 <= N_of_ascii b <= 57)%N \/ (65 <= N_of_ascii b <= 90)%N \/
  (97 <= N_of_ascii b <= 122)%N.

(** The message [m] of a client says that channel bindings of type [name] are used. *)
Definition names_binding (m name : bytes) : Prop :=
  Forall name_char name /\ exists rest, m = lit "p=" ++ name ++ lit "," ++ rest.

(** [b] begins the message, or follows a comma in it. *)
Definition begins_attribute (m : bytes) (b : byte) : Prop :=
  exists a r, m = a ++ b :: r /\ (a = [] \/ exists a', a = a' ++ lit ",").
