(** Property theorems about many sessions in one program. *)
From Coq Require Import Lia.
From Verif Require Import Bytes Types World CallbackSpec Scram Session Spec_Scram Spec_Random Process Spec_Process
  ExampleEnv ExampleScram Proof_Process.

(** ** C106 *)

(** Whatever a program does with its sessions, and in whatever order: each of them gives what it gives
    alone, called the same way, with random numbers that no other session gets. It ends as it does alone. *)
Theorem C106_isolated : forall f l p,
  exists place, own_places place /\ (forall i k, p_drawn p <= place i k) /\
    forall i,
      those_of i (together f p l) =
        alone (fun k => f (place i k)) (at_first (p_session p i)) (those_of i l) /\
      same_session (p_session (finally f p l) i)
        (alone_after (fun k => f (place i k)) (at_first (p_session p i)) (those_of i l)).
Proof. exact isolated. Qed.
Print Assumptions C106_isolated.

(** Sessions other than SCRAM before its first step need no random numbers: they give exactly what they
    give alone. *)
Theorem C106_unaffected : forall f p l i g,
  ~ new_scram_client (p_session p i) /\ ~ new_scram_server (p_session p i) ->
  those_of i (together f p l) = alone g (at_first (p_session p i)) (those_of i l).
Proof. exact unaffected. Qed.
Print Assumptions C106_unaffected.

(** A final message that two SCRAM servers of the program accept shows that the source gave the same
    nonce twice, at different places. *)
Theorem C106_replay : forall f p l i j a a' plus plus' e e' m1 m1' sc1 sc1' m sc2 sc2' st st' o1 o1' r r' o o',
  i <> j ->
  s_mech (p_session p i) = XScramS a (Some (SsClientFirst plus)) -> crypto_ok e -> no_zero sc1 ->
  s_mech (p_session p j) = XScramS a' (Some (SsClientFirst plus')) -> crypto_ok e' -> no_zero sc1' ->
  those_of i l = [(e, CallStep (Some m1) sc1); (e, CallStep (Some m) sc2)] ->
  those_of j l = [(e', CallStep (Some m1') sc1'); (e', CallStep (Some m) sc2')] ->
  those_of i (together f p l) = [OutStep (Ok st) o1; OutStep r ("v"%char :: o)] ->
  those_of j (together f p l) = [OutStep (Ok st') o1'; OutStep r' ("v"%char :: o')] ->
  exists place place', (forall k k', place k = place k' -> k = k') /\
    (forall k k', place' k = place' k' -> k = k') /\ (forall k k', place k <> place' k') /\
    nonce_at f place = nonce_at f place'.
Proof. exact replay. Qed.
Print Assumptions C106_replay.

(** ** Examples *)

(** Two SCRAM servers and a client, mixed. The second server gets the client's messages as well: it
    refuses the final message, which is for another nonce. *)
Definition ex_three : process :=
  mk_process (fun i => match i with 0 => ex_s true | 1 => ex_s true | _ => ex_bs1 end) 0.
Definition ex_mixed : schedule :=
  [(0, (ex_sv, CallStep (Some ex_b1) [])); (1, (ex_sv, CallStep (Some ex_b1) []));
   (2, (ex_cl, CallStep (Some ex_b2) [])); (1, (ex_sv, CallStep (Some ex_b3) []));
   (0, (ex_sv, CallStep (Some ex_b3) [])); (2, (ex_cl, CallStep (Some ex_b4) []));
   (0, (ex_sv, CallValidation))].
Definition ex_source (n : nat) : N := e_rng ex_sv n.
Example C106_example :
  those_of 0 (together ex_source ex_three ex_mixed) =
    [OutStep (Ok Running) ex_b2; OutStep (Ok (Finished true)) ex_b4; OutValue None] /\
  those_of 2 (together ex_source ex_three ex_mixed) = [OutStep (Ok Running) ex_b3; OutStep (Ok (Finished false)) []] /\
  (exists m, those_of 1 (together ex_source ex_three ex_mixed) =
     [OutStep (Ok Running) m; OutStep (Ok (Finished true)) (lit "e=invalid-proof")]) /\
  p_drawn (finally ex_source ex_three ex_mixed) = 48 /\
  ~ new_scram_client (p_session ex_three 2) /\ ~ new_scram_server (p_session ex_three 2).
Proof.
  split; [vm_compute; reflexivity|]. split; [vm_compute; reflexivity|].
  split; [eexists; vm_compute; reflexivity|]. split; [vm_compute; reflexivity|].
  split; intros (a & b & E); discriminate E.
Qed.

(** A source that repeats itself: both servers accept. *)
Definition ex_loop (n : nat) : N := e_rng ex_sv (Nat.modulo n 24).
Example C106_repeats :
  s_mech (p_session ex_three 0) = XScramS SHA1 (Some (SsClientFirst true)) /\
  s_mech (p_session ex_three 1) = XScramS SHA1 (Some (SsClientFirst true)) /\
  crypto_ok ex_sv /\ no_zero [] /\
  (forall i, i < 2 -> those_of i (firstn 5 ex_mixed) =
     [(ex_sv, CallStep (Some ex_b1) []); (ex_sv, CallStep (Some ex_b3) [])] /\
     those_of i (together ex_loop ex_three (firstn 5 ex_mixed)) =
       [OutStep (Ok Running) ex_b2; OutStep (Ok (Finished true)) ex_b4]) /\
  exists o, ex_b4 = "v"%char :: o.
Proof.
  split; [reflexivity|]. split; [reflexivity|]. split; [apply ex_crypto|]. split; [constructor|].
  split; [|eexists; reflexivity].
  intros [|[|i]] H; [split; [reflexivity|vm_compute; reflexivity]|split; [reflexivity|vm_compute; reflexivity]|lia].
Qed.
