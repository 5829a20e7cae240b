(** C97: SCRAM messages in the wrong place. *)
From Verif Require Import Bytes Types World CallbackSpec Simple OAuth ScramParser Scram Gssapi Session Spec_Simple Spec_Role
  ExampleEnv ExampleScram Proof_Role.

(** No message can be read in two places of an exchange ... *)
Theorem C97_one_place : forall k k' m, understood k m -> understood k' m -> k = k'.
Proof. exact one_place. Qed.
Print Assumptions C97_one_place.
(** ... a session that is given a message made for another place fails without effect ... *)
Theorem C97_misplaced : forall e k k' s m script r out s',
  understood k m -> expects k' s -> k' <> k ->
  step e s (Some m) script = (r, out, s') -> unreadable s r out s'.
Proof. exact misplaced. Qed.
Print Assumptions C97_misplaced.
(** ... so that messages cannot be sent back to the side they came from, nor to later or earlier
    states of the other one, with whatever mechanism and application it runs. *)
Theorem C97_reflected : forall e k s i st m s' e' k' t script r out t',
  sends k s -> step e s i [] = (Ok st, m, s') -> expects k' t -> k' <> k ->
  step e' t (Some m) script = (r, out, t') -> unreadable t r out t'.
Proof. exact reflected. Qed.
Print Assumptions C97_reflected.

(** The messages of a complete exchange; the client gets its own first message back. *)
Example C97_example :
  understood InClientFirst ex_b1 /\ understood InServerFirst ex_b2 /\
  understood InClientFinal ex_b3 /\ understood InServerFinal ex_b4 /\
  sends InClientFirst (ex_c Supported) /\ expects InServerFirst ex_bs1 /\
  res_of (step ex_cl ex_bs1 (Some ex_b1) []) = Err (EMech (MScramParse (PeInvalidAttribute "p"%char))).
Proof.
  split; [|split; [|split; [|split; [|split; [|split]]]]].
  - do 6 eexists. split; [|split; [exact ex_brun2|intros ([[x H]|H] & _); discriminate]]. eapply ex_client_first. reflexivity.
  - do 6 eexists. split; [|split; [exact ex_brun3|intros ([[x H]|H] & _); discriminate]]. eapply ex_server_first. reflexivity.
  - do 6 eexists. split; [|split; [exact ex_brun4|intros ([[x H]|H] & _); discriminate]]. eapply ex_client_final. reflexivity.
  - do 6 eexists. split; [|split; [exact ex_brun5|intros ([[x H]|H] & _); discriminate]]. eapply ex_server_final. reflexivity.
  - eapply se_client_first. reflexivity.
  - eapply ex_server_first. reflexivity.
  - vm_compute. reflexivity.
Qed.
