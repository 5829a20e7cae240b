(** A concrete SCRAM exchange for the examples beside the theorems. *)
From Coq Require Import Lia.
From Verif Require Import Bytes Types World CallbackSpec Scram Session ExampleEnv.

(** An exchange for the examples: user "user" with password "secret" acting as "admin", over a
    channel that can be bound. *)
Definition ex_salted : bytes := ex_pbkdf2 SHA1 (lit "secret") (lit "salt") 4096.
Definition ex_sp : stored :=
  mk_stored 4096 (lit "salt") (ex_hash SHA1 (ex_hmac SHA1 ex_salted (lit "Client Key")))
            (ex_hmac SHA1 ex_salted (lit "Server Key")).
Definition ex_chan (name : bytes) : option bytes :=
  if bytes_eqb name (lit "tls-exporter") then Some (lit "data") else None.
Definition ex_user (user : bytes) : env :=
  ex_env (fun _ => ex_cb [mk_entry PAuthId user; mk_entry PAuthzId (lit "admin");
                          mk_entry PPassword (lit "secret")]) no_vcb ex_chan.
Definition ex_cl : env := ex_user (lit "user").
Definition ex_sv : env :=
  ex_env (fun _ => ex_cb [mk_entry PScramStoredPassword ex_sp]) no_vcb ex_chan.
Definition ex_empty : env := ex_env (fun _ => ex_cb []) no_vcb ex_chan.
Definition ex_at (m : mech) : session := mk_session m [] 0 None.
Definition ex_c (plus : cbsupport) : session := ex_at (XScramC SHA1 (Some (ScInitial plus))).
Definition ex_s (plus : bool) : session := ex_at (XScramS SHA1 (Some (SsClientFirst plus))).

Definition res_of {A B C} (x : A * B * C) : A := fst (fst x).
Definition out_of {A B C} (x : A * B * C) : B := snd (fst x).
Definition ses_of {A B C} (x : A * B * C) : C := snd x.
(** Complete exchanges, evaluated: with channel binding (b), with a client that does not
    support it (n) and with a server that does not offer it (y). The messages of the n-th step
    are ex_bn etc., the session after it ex_bsn etc. *)
Definition ex_b1 : bytes := Eval vm_compute in out_of (step ex_cl (ex_c Supported) None []).
Definition ex_bs1 : session := Eval vm_compute in ses_of (step ex_cl (ex_c Supported) None []).
Lemma ex_brun1 : step ex_cl (ex_c Supported) None [] = (Ok Running, ex_b1, ex_bs1).
Proof. vm_compute. reflexivity. Qed.
Definition ex_b2 : bytes := Eval vm_compute in out_of (step ex_sv (ex_s true) (Some ex_b1) []).
Definition ex_bs2 : session := Eval vm_compute in ses_of (step ex_sv (ex_s true) (Some ex_b1) []).
Lemma ex_brun2 : step ex_sv (ex_s true) (Some ex_b1) [] = (Ok Running, ex_b2, ex_bs2).
Proof. vm_compute. reflexivity. Qed.
Definition ex_b3 : bytes := Eval vm_compute in out_of (step ex_cl ex_bs1 (Some ex_b2) []).
Definition ex_bs3 : session := Eval vm_compute in ses_of (step ex_cl ex_bs1 (Some ex_b2) []).
Lemma ex_brun3 : step ex_cl ex_bs1 (Some ex_b2) [] = (Ok Running, ex_b3, ex_bs3).
Proof. vm_compute. reflexivity. Qed.
Definition ex_b4 : bytes := Eval vm_compute in out_of (step ex_sv ex_bs2 (Some ex_b3) []).
Definition ex_bs4 : session := Eval vm_compute in ses_of (step ex_sv ex_bs2 (Some ex_b3) []).
Lemma ex_brun4 : step ex_sv ex_bs2 (Some ex_b3) [] = (Ok (Finished true), ex_b4, ex_bs4).
Proof. vm_compute. reflexivity. Qed.
Definition ex_b5 : bytes := Eval vm_compute in out_of (step ex_cl ex_bs3 (Some ex_b4) []).
Definition ex_bs5 : session := Eval vm_compute in ses_of (step ex_cl ex_bs3 (Some ex_b4) []).
Lemma ex_brun5 : step ex_cl ex_bs3 (Some ex_b4) [] = (Ok (Finished false), ex_b5, ex_bs5).
Proof. vm_compute. reflexivity. Qed.
Definition ex_n1 : bytes := Eval vm_compute in out_of (step ex_cl (ex_c ClientNoSupport) None []).
Definition ex_ns1 : session := Eval vm_compute in ses_of (step ex_cl (ex_c ClientNoSupport) None []).
Lemma ex_nrun1 : step ex_cl (ex_c ClientNoSupport) None [] = (Ok Running, ex_n1, ex_ns1).
Proof. vm_compute. reflexivity. Qed.
Definition ex_n2 : bytes := Eval vm_compute in out_of (step ex_sv (ex_s true) (Some ex_n1) []).
Definition ex_ns2 : session := Eval vm_compute in ses_of (step ex_sv (ex_s true) (Some ex_n1) []).
Lemma ex_nrun2 : step ex_sv (ex_s true) (Some ex_n1) [] = (Ok Running, ex_n2, ex_ns2).
Proof. vm_compute. reflexivity. Qed.
Definition ex_n3 : bytes := Eval vm_compute in out_of (step ex_cl ex_ns1 (Some ex_n2) []).
Definition ex_ns3 : session := Eval vm_compute in ses_of (step ex_cl ex_ns1 (Some ex_n2) []).
Lemma ex_nrun3 : step ex_cl ex_ns1 (Some ex_n2) [] = (Ok Running, ex_n3, ex_ns3).
Proof. vm_compute. reflexivity. Qed.
Definition ex_n4 : bytes := Eval vm_compute in out_of (step ex_sv ex_ns2 (Some ex_n3) []).
Definition ex_ns4 : session := Eval vm_compute in ses_of (step ex_sv ex_ns2 (Some ex_n3) []).
Lemma ex_nrun4 : step ex_sv ex_ns2 (Some ex_n3) [] = (Ok (Finished true), ex_n4, ex_ns4).
Proof. vm_compute. reflexivity. Qed.
Definition ex_n5 : bytes := Eval vm_compute in out_of (step ex_cl ex_ns3 (Some ex_n4) []).
Definition ex_ns5 : session := Eval vm_compute in ses_of (step ex_cl ex_ns3 (Some ex_n4) []).
Lemma ex_nrun5 : step ex_cl ex_ns3 (Some ex_n4) [] = (Ok (Finished false), ex_n5, ex_ns5).
Proof. vm_compute. reflexivity. Qed.
Definition ex_y1 : bytes := Eval vm_compute in out_of (step ex_cl (ex_c ServerNoSupport) None []).
Definition ex_ys1 : session := Eval vm_compute in ses_of (step ex_cl (ex_c ServerNoSupport) None []).
Lemma ex_yrun1 : step ex_cl (ex_c ServerNoSupport) None [] = (Ok Running, ex_y1, ex_ys1).
Proof. vm_compute. reflexivity. Qed.
Definition ex_y2 : bytes := Eval vm_compute in out_of (step ex_sv (ex_s false) (Some ex_y1) []).
Definition ex_ys2 : session := Eval vm_compute in ses_of (step ex_sv (ex_s false) (Some ex_y1) []).
Lemma ex_yrun2 : step ex_sv (ex_s false) (Some ex_y1) [] = (Ok Running, ex_y2, ex_ys2).
Proof. vm_compute. reflexivity. Qed.
Definition ex_y3 : bytes := Eval vm_compute in out_of (step ex_cl ex_ys1 (Some ex_y2) []).
Definition ex_ys3 : session := Eval vm_compute in ses_of (step ex_cl ex_ys1 (Some ex_y2) []).
Lemma ex_yrun3 : step ex_cl ex_ys1 (Some ex_y2) [] = (Ok Running, ex_y3, ex_ys3).
Proof. vm_compute. reflexivity. Qed.
Definition ex_y4 : bytes := Eval vm_compute in out_of (step ex_sv ex_ys2 (Some ex_y3) []).
Definition ex_ys4 : session := Eval vm_compute in ses_of (step ex_sv ex_ys2 (Some ex_y3) []).
Lemma ex_yrun4 : step ex_sv ex_ys2 (Some ex_y3) [] = (Ok (Finished true), ex_y4, ex_ys4).
Proof. vm_compute. reflexivity. Qed.
Definition ex_y5 : bytes := Eval vm_compute in out_of (step ex_cl ex_ys3 (Some ex_y4) []).
Definition ex_ys5 : session := Eval vm_compute in ses_of (step ex_cl ex_ys3 (Some ex_y4) []).
Lemma ex_yrun5 : step ex_cl ex_ys3 (Some ex_y4) [] = (Ok (Finished false), ex_y5, ex_ys5).
Proof. vm_compute. reflexivity. Qed.

Lemma ex_crypto cb vcb chan : crypto_ok (ex_env cb vcb chan).
Proof.
  assert (H : forall a (x : bytes) c, length (firstn (hlen a) (x ++ repeat c (hlen a))) = hlen a).
  { intros a x c. rewrite firstn_length, app_length, repeat_length. lia. }
  split; [|split]; intros; cbn [ex_env e_hash e_hmac e_pbkdf2]; unfold ex_hash, ex_hmac, ex_pbkdf2;
    rewrite ?app_assoc; apply H.
Qed.
Lemma ex_cl_polite user : polite (ex_user user).
Proof. intros tr c k. simpl. repeat split. Qed.

(** Proves [text_answers] of a concrete list of events. *)
Ltac ex_text :=
  split; [|split]; intros y Hy; vm_compute in Hy;
  repeat (destruct Hy as [<-|Hy]; [first [reflexivity|split; [discriminate|reflexivity]]|]);
  destruct Hy.
