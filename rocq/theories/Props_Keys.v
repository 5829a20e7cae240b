(** Property theorems about what a SCRAM server reveals of the stored keys. *)
From Coq Require Import Lia.
From Verif Require Import Bytes Num Types World Simple Scram Session Spec_Flow Spec_Scram Spec_Keys ExampleEnv
  ExampleScram Proof_Scram Proof_Keys.

(** ** C81 *)

(** Two SCRAM servers whose stored passwords differ in the keys only answer a message with the same
    bytes and the same result, and stay alike, unless the message contains the proof that one of
    them waits for. *)
Theorem C81_step : forall e cb' vcb' a s s' input script,
  apps_rel other_keys (e_sd e) (e_cb e) cb' (e_vcb e) vcb' -> crypto_ok e -> servers_alike a s s' ->
  (forall m, input = Some m -> ~ proof_received e s m /\
     ~ proof_received (set_apps e cb' vcb' (e_pbkdf2 e)) s' m) ->
  exists r out t t', step e s input script = (r, out, t) /\
    step (set_apps e cb' vcb' (e_pbkdf2 e)) s' input script = (r, out, t') /\ servers_alike a t t'.
Proof. intros e cb' vcb' a s s' input script H. exact (keys_step e cb' vcb' H a s s' input script). Qed.
Print Assumptions C81_step.

(** So the whole dialogue is the same as long as no message contains such a proof. *)
Theorem C81_dialogue : forall e cb' vcb' a l s s',
  apps_rel other_keys (e_sd e) (e_cb e) cb' (e_vcb e) vcb' -> crypto_ok e -> servers_alike a s s' ->
  ~ ever_proven e s l -> ~ ever_proven (set_apps e cb' vcb' (e_pbkdf2 e)) s' l ->
  dialogue (set_apps e cb' vcb' (e_pbkdf2 e)) s' l = dialogue e s l /\
  servers_alike a (after e s l) (after (set_apps e cb' vcb' (e_pbkdf2 e)) s' l).
Proof. intros e cb' vcb' a l s s' H C. exact (keys_dialogue e cb' vcb' H a l C s s'). Qed.
Print Assumptions C81_dialogue.

(** ** Examples *)

(** The keys of another password under the same salt. *)
Definition ex_salted2 : bytes := ex_pbkdf2 SHA1 (lit "another") (lit "salt") 4096.
Definition ex_sp2 : stored :=
  mk_stored 4096 (lit "salt") (ex_hash SHA1 (ex_hmac SHA1 ex_salted2 (lit "Client Key")))
            (ex_hmac SHA1 ex_salted2 (lit "Server Key")).
Definition ex_cb2 : callback_of := fun _ _ _ _ => ex_cb [mk_entry PScramStoredPassword ex_sp2].
Definition ex_sv2 : env := set_apps ex_sv ex_cb2 (e_vcb ex_sv) (e_pbkdf2 ex_sv).
(** A final message with a proof of zeros. *)
Definition ex_guess : bytes := firstn (length ex_b3 - 28) ex_b3 ++ lit "AAAAAAAAAAAAAAAAAAAAAAAAAAA=".

Example C81_apps : apps_rel other_keys (e_sd ex_sv) (e_cb ex_sv) ex_cb2 (e_vcb ex_sv) (e_vcb ex_sv) /\
  servers_alike SHA1 (ex_s true) (ex_s true) /\ crypto_ok ex_sv /\
  st_stored_key ex_sp2 <> st_stored_key ex_sp.
Proof.
  split.
  { intros tr tr' _. split; [|intros; constructor].
    intros c k. simpl. constructor; [constructor; split; reflexivity|].
    intros [x|]; constructor. }
  split; [split; [left; eexists; split; reflexivity|reflexivity|constructor|split; auto]|].
  split; [apply ex_crypto|]. vm_compute. discriminate.
Qed.

(** Both servers refuse the guess in the same words; the right proof tells them apart. *)
Example C81_dialogue_example :
  dialogue ex_sv (ex_s true) [(Some ex_b1, []); (Some ex_guess, [])]
    = [(Ok Running, ex_b2); (Ok (Finished true), lit "e=invalid-proof")] /\
  dialogue ex_sv2 (ex_s true) [(Some ex_b1, []); (Some ex_guess, [])]
    = [(Ok Running, ex_b2); (Ok (Finished true), lit "e=invalid-proof")] /\
  dialogue ex_sv (ex_s true) [(Some ex_b1, []); (Some ex_b3, [])]
    = [(Ok Running, ex_b2); (Ok (Finished true), ex_b4)] /\
  dialogue ex_sv2 (ex_s true) [(Some ex_b1, []); (Some ex_b3, [])]
    = [(Ok Running, ex_b2); (Ok (Finished true), lit "e=invalid-proof")].
Proof. repeat split; vm_compute; reflexivity. Qed.

(** No message of the dialogue with the guess contains a proof, for either server. *)
Lemma ex_unproven e s out s' m : crypto_ok e ->
  step e s (Some m) [] = (Ok (Finished true), "e"%char :: out, s') -> ~ proof_received e s m.
Proof.
  intros Hc H (a & cn & sn & h & u & z & sp & cb & p64 & exts & W & A).
  destruct (server_second _ _ _ _ _ _ _ _ _ _ _ _ _ _ W Hc H) as
    [(cb1 & p1 & x1 & rest & _ & E & _)|[N _]]; [discriminate E|exact (N _ _ _ A)].
Qed.
Example C81_unproven :
  ~ ever_proven ex_sv (ex_s true) [(Some ex_b1, []); (Some ex_guess, [])] /\
  ~ ever_proven ex_sv2 (ex_s true) [(Some ex_b1, []); (Some ex_guess, [])].
Proof.
  split; intros (l1 & m & script & l2 & E & P); destruct l1 as [|x [|y [|]]]; try discriminate.
  1,3: destruct P as (a & cn & sn & h & u & z & sp & cb & p64 & exts & W & _); discriminate W.
  1-2: injection E as <- <- <- <-; revert P; eapply ex_unproven; [|vm_compute; reflexivity].
  - apply ex_crypto.
  - exact (ex_crypto _ _ _).
Qed.
