(** Property theorems about deriving keys from passwords. *)
From Verif Require Import Bytes Types World Scram Session Spec_Flow Spec_Simple Spec_Scram Spec_Derive
  ExampleEnv ExampleScram Proof_Derive.

(** ** C113 *)

(** Nothing but a SCRAM client that waits for the server's first message derives keys from a password:
    no server and no other mechanism does, nor any other step of the client. *)
Theorem C113_elsewhere : forall e kdf s input script, ~ expects_salt s ->
  step (set_kdf e kdf) s input script = step e s input script.
Proof. exact step_elsewhere. Qed.
Print Assumptions C113_elsewhere.

(** That client derives at most one: from a password the callback has given in this step, with the
    salt and the iteration count of the message.  If the message does not continue the client's nonce,
    or has no valid salt or iteration count, or if the callback gives no password (because it has
    given keys or the salted password instead), it derives none. *)
Theorem C113_derived : forall e kdf s a cb nonce user m script r out s' evs,
  client_waits s a cb nonce user ->
  step e s (Some m) script = (r, out, s') -> new_events s s' evs ->
  (forall sn salt64 salt iters n p, continues m nonce sn salt64 salt iters n ->
     In (EvAnswer PPassword p) evs -> kdf a p salt n = e_pbkdf2 e a p salt n) ->
  step (set_kdf e kdf) s (Some m) script = (r, out, s').
Proof. exact step_derives. Qed.
Print Assumptions C113_derived.

(** Over a whole exchange, however long and whatever is received, PBKDF2 is run for at most one
    password, salt and iteration count. *)
Theorem C113_once : forall e l s a st, s_mech s = XScramC a st ->
  exists p salt n, forall kdf, kdf a p salt n = e_pbkdf2 e a p salt n ->
  dialogue (set_kdf e kdf) s l = dialogue e s l /\ after (set_kdf e kdf) s l = after e s l.
Proof. exact derived_once. Qed.
Print Assumptions C113_once.

(** A function that knows only the one salted password. *)
Definition ex_one : kdf_of := fun a p salt n =>
  match a with
  | SHA1 => if bytes_eqb p (lit "secret") && bytes_eqb salt (lit "salt") && N.eqb n 4096
            then ex_pbkdf2 SHA1 p salt n else []
  | _ => []
  end.
Definition ex_none : kdf_of := fun _ _ _ _ => [].

(** It is enough for the client, and no other would be. *)
Example C113_ex_one : step (set_kdf ex_cl ex_one) ex_bs1 (Some ex_b2) [] = (Ok Running, ex_b3, ex_bs3).
Proof. vm_compute. reflexivity. Qed.
Example C113_ex_none : out_of (step (set_kdf ex_cl ex_none) ex_bs1 (Some ex_b2) []) <> ex_b3.
Proof. vm_compute. discriminate. Qed.
(** A session that expects the salt, and ones that do not. *)
Example C113_ex_expects : expects_salt ex_bs1.
Proof. exists SHA1. eexists. reflexivity. Qed.
Example C113_ex_not : ~ expects_salt (ex_s true) /\ ~ expects_salt (ex_c Supported) /\ ~ expects_salt ex_bs3.
Proof. repeat split; intros [a [st H]]; discriminate. Qed.
(** A client whose callback gives the salted password derives nothing; a message that is refused does
    not make it derive anything either. *)
Definition ex_pre : env :=
  ex_env (fun _ => ex_cb [mk_entry PAuthId (lit "user"); mk_entry PSaltedPassword (lit "salted")]) no_vcb ex_chan.
Example C113_ex_given :
  out_of (step (set_kdf ex_pre ex_none) ex_bs1 (Some ex_b2) []) = out_of (step ex_pre ex_bs1 (Some ex_b2) []) /\
  res_of (step ex_pre ex_bs1 (Some ex_b2) []) = Ok Running.
Proof. split; vm_compute; reflexivity. Qed.
Example C113_ex_refused :
  step (set_kdf ex_cl ex_none) ex_bs1 (Some (lit "r=other,s=c2FsdA==,i=4096")) [] =
  step ex_cl ex_bs1 (Some (lit "r=other,s=c2FsdA==,i=4096")) [].
Proof. vm_compute. reflexivity. Qed.
