(** Property theorems about what an exchange depends on. *)
From Coq Require Import Lia.
From Verif Require Import Bytes Types World Simple Scram Session Spec_Flow Sha ExampleEnv ExampleScram
  Proof_Flow Proof_Sha.

(** ** C73 *)

(** The values an application hands over in its validation callback influence neither what is
    sent nor how a step ends, in any mechanism. *)
Theorem C73_values : forall e cb' vcb' s s' l,
  apps_rel same_answer (e_sd e) (e_cb e) cb' (e_vcb e) vcb' -> session_rel same_answer s s' ->
  dialogue (set_apps e cb' vcb' (e_pbkdf2 e)) s' l = dialogue e s l /\
  session_rel same_answer (after e s l) (after (set_apps e cb' vcb' (e_pbkdf2 e)) s' l).
Proof. exact flow_values. Qed.
Print Assumptions C73_values.

(** What a SCRAM client sends, how its steps end and what it keeps, depends on the password only by
    way of the salted passwords: a different password with a different PBKDF2 function that
    derives the same salted passwords from it leads to the same exchange. *)
Theorem C73_password : forall e cb' vcb' kdf s s' a st l,
  s_mech s = XScramC a st ->
  apps_rel (same_key (e_pbkdf2 e) kdf) (e_sd e) (e_cb e) cb' (e_vcb e) vcb' ->
  session_rel (same_key (e_pbkdf2 e) kdf) s s' ->
  dialogue (set_apps e cb' vcb' kdf) s' l = dialogue e s l /\
  session_rel (same_key (e_pbkdf2 e) kdf) (after e s l) (after (set_apps e cb' vcb' kdf) s' l).
Proof. exact flow_password. Qed.
Print Assumptions C73_password.

(** ** Examples *)

Definition ex_values (x : bytes) : validator_of := fun _ _ _ => VFinalize 0 x (VRet None).
Definition ex_srv (x : bytes) : env :=
  set_apps ex_sv (e_cb ex_sv) (ex_values x) (e_pbkdf2 ex_sv).
Example C73_values_example :
  apps_rel same_answer (e_sd (ex_srv (lit "alice"))) (e_cb (ex_srv (lit "alice"))) (e_cb ex_sv)
    (e_vcb (ex_srv (lit "alice"))) (ex_values (lit "bob")) /\
  session_rel same_answer (ex_s true) (ex_s true) /\
  map fst (dialogue (ex_srv (lit "bob")) (ex_s true) [(Some ex_b1, []); (Some ex_b3, [])])
    = [Ok Running; Ok (Finished true)] /\
  s_val (after (ex_srv (lit "alice")) (ex_s true) [(Some ex_b1, []); (Some ex_b3, [])])
    = Some (lit "alice") /\
  s_val (after (ex_srv (lit "bob")) (ex_s true) [(Some ex_b1, []); (Some ex_b3, [])])
    = Some (lit "bob").
Proof.
  split.
  { intros tr tr' _. split; [|intros; repeat constructor].
    intros c k. simpl. repeat constructor. intros [x|]; constructor. }
  split; [repeat constructor|]. vm_compute. repeat split.
Qed.

(** A client that types its password backwards, and a PBKDF2 function that reads it backwards. *)
Definition ex_back : callback_of := fun _ _ _ _ =>
  ex_cb [mk_entry PAuthId (lit "user"); mk_entry PAuthzId (lit "admin"); mk_entry PPassword (lit "terces")].
Definition ex_kdf : kdf_of := fun a p salt i => ex_pbkdf2 a (rev p) salt i.
Example C73_password_example :
  apps_rel (same_key (e_pbkdf2 ex_cl) ex_kdf) (e_sd ex_cl) (e_cb ex_cl) ex_back
    (e_vcb ex_cl) (e_vcb ex_cl) /\
  session_rel (same_key (e_pbkdf2 ex_cl) ex_kdf) (ex_c ClientNoSupport) (ex_c ClientNoSupport) /\
  dialogue (set_apps ex_cl ex_back (e_vcb ex_cl) ex_kdf) (ex_c ClientNoSupport)
    [(None, []); (Some ex_n2, []); (Some ex_n4, [])]
  = [(Ok Running, ex_n1); (Ok Running, ex_n3); (Ok (Finished false), [])].
Proof.
  split.
  { intros tr tr' _. split; [|intros; constructor].
    intros c k. simpl. constructor; [constructor; discriminate|].
    intros [x|]; [constructor|]. constructor; [constructor; discriminate|].
    intros [x|]; [constructor|]. constructor; [constructor; reflexivity|].
    intros [x|]; constructor. }
  split; [repeat constructor|]. vm_compute. reflexivity.
Qed.

(** With the functions in use, a password and the same password followed by a zero octet. *)
Definition ex_typed (p : bytes) : callback_of := fun _ _ _ _ =>
  ex_cb [mk_entry PAuthId (lit "user"); mk_entry PPassword p].
Example C73_zero_example : forall e,
  apps_rel (same_key (e_pbkdf2 (with_crypto e)) pbkdf2) (e_sd e)
    (ex_typed (lit "secret" ++ [zero])) (ex_typed (lit "secret"))
    (fun _ _ _ => VRet None) (fun _ _ _ => VRet None).
Proof.
  intros e tr tr' _. split; [|intros; constructor].
  intros c k. simpl. constructor; [constructor; discriminate|].
  intros [x|]; [constructor|]. constructor; [|intros [x|]; constructor].
  constructor. intros a salt i. apply (pbkdf2_zeros a (lit "secret") 1).
  destruct a; cbn; lia.
Qed.

(** In PLAIN, the two clients above send different messages. *)
Example C73_plain_example :
  dialogue ex_cl (ex_at XPlainC) [(None, [])]
    <> dialogue (set_apps ex_cl ex_back (e_vcb ex_cl) ex_kdf) (ex_at XPlainC) [(None, [])].
Proof. vm_compute. discriminate. Qed.
