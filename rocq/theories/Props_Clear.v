(** C117: when a password is sent in the clear. *)
From Coq Require Import List.
From Verif Require Import Bytes Utf8 Types World CallbackSpec Session Registry Apps Interop Spec_Simple Spec_Order Spec_Creds
  Spec_Flow Spec_Derive Spec_Clear ExampleEnv ExampleScram Proof_Clear.
Import ListNotations.

(** C117: a client made by with_credentials that is offered SCRAM, whatever else is offered and
    whatever it receives: what it sends is the same for another password from which another
    PBKDF2 derives the same keys. *)
Theorem C117_hidden_partial : forall e z a p p' kdf offered l, scram_offered offered ->
  (forall g salt n, kdf g p' salt n = e_pbkdf2 e g p salt n) ->
  spoken e z a p offered l <> None /\
  spoken (set_kdf e kdf) z a p' offered l = spoken e z a p offered l.
Proof. exact hidden. Qed.
Print Assumptions C117_hidden_partial.

(** C117: otherwise it sends the password as it is as soon as it may speak, without waiting for
    anything. *)
Theorem C117_clear : forall e z a p offered, (forall x : bytes, z = Some x -> nul_free x) ->
  a <> [] -> nul_free a -> utf8_valid a = true -> p <> [] -> nul_free p ->
  ~ scram_offered offered ->
  (exists m, In m (credentials_order (given z)) /\ In (d_name m) offered) ->
  said (spoken e z a p offered [(None, []); (None, [])]) p.
Proof. exact clear. Qed.
Print Assumptions C117_clear.

(** C117: so it does not help that the server knows SCRAM: one in the middle who passes on a part of
    the offers is told the password. *)
Theorem C117_stripped_refuted :
  ~ (forall e z a p available offered l, scram_offered available -> incl offered available ->
       p <> [] -> ~ said (spoken e z a p offered l) p).
Proof.
  intros H. apply (H ex_empty None (lit "user") (lit "secret") [lit "SCRAM-SHA-256"; lit "PLAIN"] [lit "PLAIN"]
    [(None, []); (None, [])]).
  - exists SHA256. left. reflexivity.
  - intros x [<-|[]]. right. left. reflexivity.
  - discriminate.
  - apply C117_clear; try discriminate; try reflexivity.
    + unfold nul_free. cbn. intuition discriminate.
    + unfold nul_free. cbn. intuition discriminate.
    + intros [[| |] [X|[]]]; discriminate X.
    + exists DPlain. split; [cbn; tauto|left; reflexivity].
Qed.
Print Assumptions C117_stripped_refuted.

(** A dialogue that reaches the proof; the other password is the same one backwards. *)
Definition clear_kdf : kdf_of := fun g p salt n => ex_pbkdf2 g (rev p) salt n.
Definition clear_first : bytes :=
  match spoken ex_empty None (lit "user") (lit "secret") [lit "PLAIN"; lit "SCRAM-SHA-1"] [(None, [])] with
  | Some [(_, m)] => m
  | _ => []
  end.
Definition clear_answer : bytes := skipn 10 clear_first ++ lit "server,s=c2FsdA==,i=4096".
Example C117_hidden_example :
  (forall g salt n, clear_kdf g (lit "terces") salt n = e_pbkdf2 ex_empty g (lit "secret") salt n) /\
  (exists d1 d2, spoken ex_empty None (lit "user") (lit "secret") [lit "PLAIN"; lit "SCRAM-SHA-1"]
     [(None, []); (Some clear_answer, [])] = Some [(Ok Running, d1); (Ok Running, d2)] /\ d2 <> []).
Proof.
  split; [intros; reflexivity|]. vm_compute. do 2 eexists. split; [reflexivity|discriminate].
Qed.
Example C117_clear_example : exists d,
  spoken ex_empty None (lit "user") (lit "secret") [lit "CRAM-MD5"; lit "LOGIN"] [(None, []); (None, [])]
  = Some [(Ok Running, lit "user"); (Ok (Finished true), d)] /\ d = lit "secret".
Proof. vm_compute. eexists. split; reflexivity. Qed.
