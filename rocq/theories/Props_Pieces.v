(** C119: how the writer takes the bytes. *)
From Coq Require Import List.
From Verif Require Import Bytes Types World CallbackSpec Simple OAuth Scram Gssapi Session Registry Spec_Basic Spec_Session Spec_Flow Spec_Pieces
  ExampleEnv ExampleScram Proof_Pieces.
Import ListNotations.

(** C119: a writer that takes at least one byte each time makes no difference to a step, whatever the
    application does and however the step ends... *)
Theorem C119_pieces : forall e s input script, willing script ->
  step e s input script = step e s input [].
Proof. exact step_pieces. Qed.
Print Assumptions C119_pieces.
(** C119: ... nor to a whole exchange. *)
Theorem C119_dialogue : forall e l, Forall (fun p => willing (snd p)) l -> forall s,
  dialogue e s l = dialogue e s (undisturbed l) /\ after e s l = after e s (undisturbed l).
Proof. exact dialogue_pieces. Qed.
Print Assumptions C119_dialogue.

(** C119: a writer that is interrupted does make a difference, where messages are written from several
    buffers: a SCRAM client fails, and panics when stepped again. *)
Definition pieces_after : session := snd (step ex_cl (ex_c ClientNoSupport) None [WInterrupt]).
Example pieces_fails :
  fst (step ex_cl (ex_c ClientNoSupport) None []) = (Ok Running, ex_n1) /\
  fst (step ex_cl (ex_c ClientNoSupport) None [WInterrupt]) = (Err (EIo (IoOther 0)), []) /\
  fst (step ex_cl pieces_after None []) = (Panic, []).
Proof. split; [vm_compute; reflexivity|]. split; vm_compute; reflexivity. Qed.
Theorem C119_interrupted_refuted :
  ~ (forall e s input script, patient script -> step e s input script = step e s input []).
Proof.
  intros H. destruct pieces_fails as (H1 & H2 & _). rewrite (H _ _ _ [WInterrupt]) in H2.
  - rewrite H1 in H2. discriminate H2.
  - repeat constructor.
Qed.
Print Assumptions C119_interrupted_refuted.
(** C119: it makes none for the mechanisms that write their messages in one piece: all but the
    clients of XOAUTH2 and OAUTHBEARER and SCRAM. *)
Theorem C119_interrupted_partial : forall e l, Forall (fun p => patient (snd p)) l -> forall s,
  match s_mech s with
  | XXOAuth2C _ | XOAuthBearerC _ | XScramC _ _ | XScramS _ _ => False
  | _ => True
  end ->
  dialogue e s l = dialogue e s (undisturbed l) /\ after e s l = after e s (undisturbed l).
Proof.
  intros e l F s P. apply dialogue_interrupted; [exact F|]. destruct (s_mech s); try reflexivity; destruct P.
Qed.
Print Assumptions C119_interrupted_partial.

Example C119_example :
  willing [WAccept 1; WAccept 1; WAccept 7] /\
  fst (step ex_cl (ex_c ClientNoSupport) None [WAccept 1; WAccept 1; WAccept 7]) = (Ok Running, ex_n1).
Proof. split; [repeat constructor; eexists; reflexivity|vm_compute; reflexivity]. Qed.
Example C119_interrupted_example :
  patient [WInterrupt; WAccept 1; WInterrupt; WAccept 3] /\
  fst (step ex_cl (ex_at XPlainC) None [WInterrupt; WAccept 1; WInterrupt; WAccept 3])
  = (Ok (Finished true), lit "admin" ++ [nul] ++ lit "user" ++ [nul] ++ lit "secret").
Proof.
  split; [|vm_compute; reflexivity].
  repeat (apply Forall_cons; [first [left; reflexivity|right; eexists; reflexivity]|]). apply Forall_nil.
Qed.
