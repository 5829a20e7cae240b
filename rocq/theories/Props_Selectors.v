(** Property theorems about selection with mechanisms of other crates. *)
From Verif Require Import Bytes Types World Simple OAuth Scram Gssapi Session Registry Selectors
  Spec_Selectors Proof_Selectors.

(** ** C109 *)

(** C109: the client starts the mechanism its preference function ends with, asked about those
    that want to run in the order of the registry; it starts it the way the selector says, and
    no other. *)
Theorem C109_outcome : forall R A (st : statics R A) reg cb offered prefer l last,
  willing st cb offered reg l -> asked prefer None l last ->
  match last with
  | None => g_registry_select st reg cb offered prefer = Err NoSharedMechanism
  | Some (g, m) => forall x, started st g x ->
      match x with
      | Ok i => g_registry_select st reg cb offered prefer = Ok (i, m)
      | Err _ => g_registry_select st reg cb offered prefer = Err NoSharedMechanism
      | Panic => g_registry_select st reg cb offered prefer = Panic
      end
  end.
Proof. exact outcome. Qed.
Print Assumptions C109_outcome.
Theorem C109_determined : forall R A (st : statics R A) reg cb offered prefer,
  exists l last, willing st cb offered reg l /\ asked prefer None l last /\
    match last with None => True | Some (g, _) => exists x, started st g x end.
Proof. exact determined. Qed.
Print Assumptions C109_determined.

(** C109: a mechanism that does not want to run changes nothing. *)
Theorem C109_silent : forall R A (st : statics R A) l1 m l2 cb offered prefer,
  silent st cb offered m ->
  g_registry_select st (l1 ++ m :: l2) cb offered prefer
  = g_registry_select st (l1 ++ l2) cb offered prefer.
Proof. exact silent_away. Qed.
Print Assumptions C109_silent.

(** C109: with rsasl's own mechanisms this is the selection of C02-C05. *)
Theorem C109_own : forall reg cb offered prefer,
  g_registry_select own_statics reg cb offered prefer = client_start reg cb prefer offered.
Proof. exact own_same. Qed.
Print Assumptions C109_own.

(** A mechanism of another crate ([true]) that wants to run if at least two names were offered,
    and PLAIN ([false]). The other mechanism starts as [start]. *)
Definition ex_counting (start : res sasl_err nat) : statics bool nat :=
  mk_statics (fun r : bool => if r then None else Some (Ok 7))
    (fun (r : bool) _ => Some (if r
       then GNothing nat 0 (fun n _ => (n + 1, None))
              (fun n => (n, if Nat.leb 2 n then Some true else None)) (fun n => start)
       else GNothing unit tt
              (fun s o => (s, if bytes_eqb o (lit "PLAIN") then Some false else None))
              (fun s => (s, None)) (fun s => Ok 7))).
(** The other mechanism is preferred. *)
Definition ex_rather (a : option bool) (b : bool) : comparison :=
  match a with Some true => Gt | _ => Lt end.

(** C109: the error is not what error.rs:140-143 says: PLAIN was offered, is available and
    wanted to run, and the preference function would have taken it. *)
Theorem C109_error_refuted :
  ~ (forall R A (st : statics R A) reg cb offered prefer l,
       willing st cb offered reg l ->
       (g_registry_select st reg cb offered prefer = Err NoSharedMechanism
        <-> asked prefer None l None)).
Proof.
  intros H. set (st := ex_counting (Err NoSharedMechanism)).
  pose proof (ready_willing st false [lit "PLAIN"; lit "LOGIN"] [true; false]) as Hw.
  destruct (H _ _ _ _ _ _ ex_rather _ Hw) as [K _].
  specialize (K ltac:(vm_compute; reflexivity)).
  pose proof (asked_fun _ _ _ _ _ K (fold_asked ex_rather _ None)) as E.
  vm_compute in E. discriminate E.
Qed.
Print Assumptions C109_error_refuted.

(** C109: it is if no start function returns an error. Missing: start functions that do. *)
Theorem C109_error_partial : forall R A (st : statics R A) reg cb offered prefer l,
  (forall r x, st_client st r <> Some (Err x)) ->
  (forall m g, In m reg -> st_select st m cb = Some g -> can_start g) ->
  willing st cb offered reg l ->
  (g_registry_select st reg cb offered prefer = Err NoSharedMechanism <-> asked prefer None l None).
Proof. exact error_means. Qed.
Print Assumptions C109_error_partial.

(** The other mechanism runs when two names are offered and PLAIN when it is the only one. *)
Example C109_example :
  let st := ex_counting (Ok 3) in
  g_registry_select st [true; false] false [lit "LOGIN"; lit "PLAIN"] ex_rather = Ok (3, true) /\
  g_registry_select st [true; false] false [lit "PLAIN"] ex_rather = Ok (7, false) /\
  g_registry_select st [false; true] false [lit "LOGIN"] ex_rather = Err NoSharedMechanism /\
  (exists g1 g2, willing st false [lit "LOGIN"; lit "PLAIN"] [true; false] [(g1, true); (g2, false)] /\
  asked ex_rather None [(g1, true); (g2, false)] (Some (g1, true)) /\ started st g1 (Ok 3)) /\
  silent st false [lit "PLAIN"] true /\ ~ silent st false [lit "PLAIN"] false /\
  (forall r x, st_client st r <> Some (Err x)) /\
  (forall m g, st_select st m false = Some g -> can_start g).
Proof.
  cbv zeta.
  split; [vm_compute; reflexivity|]. split; [vm_compute; reflexivity|].
  split; [vm_compute; reflexivity|]. split.
  { eexists. eexists. split; [|split].
    - eapply wi_yes; [reflexivity| |eapply wi_yes; [reflexivity| |constructor]].
      + eapply an_miss; [reflexivity|]. eapply an_miss; [reflexivity|]. apply an_end. reflexivity.
      + eapply an_miss; [reflexivity|]. eapply an_hit. reflexivity.
    - apply as_take; [discriminate|]. apply as_keep; [reflexivity|]. constructor.
    - exact (sd_own (ex_counting (Ok 3)) nat 2 _ _ (fun n => Ok 3)). }
  split.
  { intros g g' r E Ha. injection E as <-. apply answer_fun in Ha. destruct Ha as [_ ->]. reflexivity. }
  split.
  { intros H. discriminate (H _ _ _ eq_refl
      (an_hit (A := nat) unit tt _ (fun s => (s, None)) (fun s => Ok 7) (lit "PLAIN") [] tt false eq_refl)). }
  split; [intros [] x; discriminate|].
  intros [] g E; injection E as <-; intros t x; discriminate.
Qed.
