(** Property theorems about the client's preference function. *)
From Verif Require Import Bytes Types World Simple OAuth Scram Gssapi Session Registry
  Spec_Registry Spec_Prefer Proof_Prefer.

(** C90: [prefer] is called once for every registered mechanism the offer makes a candidate,
    in the order of the registry, first with [None] and then with the mechanism it preferred
    so far; what it prefers in the end decides how the start ends. *)
Theorem C90_calls : forall reg cb prefer offered l last,
  picks (candidate cb offered) reg l ->
  calls prefer None l last ->
  match last with
  | Some m => if d_has_client m
              then exists i, client_start reg cb prefer offered = Ok (i, m) /\ fresh_client m i
              else client_start reg cb prefer offered = Panic
  | None => client_start reg cb prefer offered = Err NoSharedMechanism
  end.
Proof. exact start_calls. Qed.
Print Assumptions C90_calls.

(** C90: there always is such a sequence of calls. *)
Theorem C90_called : forall reg cb prefer offered,
  exists l last, picks (candidate cb offered) reg l /\ calls prefer None l last.
Proof. exact start_called. Qed.
Print Assumptions C90_called.

(** C90: a mechanism that is always answered with [Greater] is never started, whatever the
    server offers. *)
Theorem C90_rejected : forall reg cb prefer offered m,
  (forall o, prefer o m = Gt) ->
  forall i, client_start reg cb prefer offered <> Ok (i, m).
Proof. exact start_rejected. Qed.
Print Assumptions C90_rejected.

(** C90: a preference function that compares acceptable mechanisms by a total preorder and
    refuses the others gets a greatest acceptable mechanism among those offered, and the
    start fails exactly if no acceptable mechanism was offered. *)
Theorem C90_greatest : forall prefer ok cmp,
  total_preorder cmp -> follows_rules prefer (fun m => ok m = true) cmp ->
  forall reg cb offered,
  (forall i m, client_start reg cb prefer offered = Ok (i, m) ->
     greatest cmp (fun x => candidate cb offered x /\ ok x = true) reg m) /\
  (client_start reg cb prefer offered = Err NoSharedMechanism <->
     forall m, In m reg -> candidate cb offered m -> ok m = false).
Proof. exact rules_greatest. Qed.
Print Assumptions C90_greatest.

(** A client that never sends its password in the clear and prefers the mechanism with the
    longest name otherwise. *)
Definition ex_ok (m : mechanism) : bool :=
  match m with DPlain | DLogin => false | _ => true end.
Definition ex_cmp (a b : mechanism) : comparison :=
  Nat.compare (length (d_name a)) (length (d_name b)).
Definition ex_prefer : preference := fun a b =>
  if ex_ok b then match a with None => Lt | Some a => ex_cmp a b end else Gt.

Example C90_rules :
  total_preorder ex_cmp /\ follows_rules ex_prefer (fun m => ex_ok m = true) ex_cmp.
Proof.
  split.
  - split.
    + intros a b. apply Nat.compare_antisym.
    + intros a b c. unfold ex_cmp. rewrite !Nat.compare_ngt_iff. intros H1 H2 H3.
      apply H1. eapply Nat.le_lt_trans; [|exact H3]. apply Nat.nlt_ge. exact H2.
  - unfold follows_rules, ex_prefer. repeat split.
    + intros a b H. destruct (ex_ok b); congruence.
    + intros b H. rewrite H. discriminate.
    + intros a b _ H. rewrite H. reflexivity.
Qed.

Example C90_example :
  client_start builtin_registry false ex_prefer
    [lit "PLAIN"; lit "SCRAM-SHA-1"; lit "SCRAM-SHA-256"; lit "LOGIN"]
  = Ok (Builtin (XScramC SHA256 (Some (ScInitial ClientNoSupport))), DScram SHA256 false) /\
  client_start builtin_registry false ex_prefer [lit "PLAIN"; lit "LOGIN"]
  = Err NoSharedMechanism /\
  client_start builtin_registry false default_prefer [lit "PLAIN"; lit "LOGIN"]
  = Ok (Builtin XPlainC, DPlain) /\
  (forall o, ex_prefer o DPlain = Gt) /\
  calls ex_prefer None [DScram SHA256 false; DScram SHA1 false; DPlain; DLogin]
    (Some (DScram SHA256 false)) /\
  candidate false [lit "PLAIN"; lit "SCRAM-SHA-1"] (DScram SHA1 false) /\
  ~ candidate false [lit "PLAIN"; lit "SCRAM-SHA-1"] DLogin.
Proof.
  split; [reflexivity|]. split; [reflexivity|]. split; [reflexivity|]. split; [reflexivity|].
  split.
  { apply calls_take; [discriminate|]. repeat (apply calls_keep; [reflexivity|]). constructor. }
  split; [exists (lit "SCRAM-SHA-1"); simpl; auto|].
  intros [n [Hn E]]. simpl in Hn, E. subst n. destruct Hn as [H|[H|[]]]; discriminate.
Qed.

(** The default preference follows the rules, too (callback.rs:111-113). *)
Example C90_default :
  total_preorder (fun a b => Nat.compare (d_priority a) (d_priority b)) /\
  follows_rules default_prefer (fun _ => True)
    (fun a b => Nat.compare (d_priority a) (d_priority b)).
Proof. split; [exact priority_preorder|exact default_rules]. Qed.
