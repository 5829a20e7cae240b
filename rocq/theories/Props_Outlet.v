(** C129: mechanisms of other crates and their writer. *)
From Coq Require Import List.
From Verif Require Import Bytes Base64 Types World CallbackSpec Session Spec_Session Spec_Pieces
  ExampleEnv Custom Spec_Custom Spec_Outlet Proof_Outlet.
Import ListNotations.

(** C129: with code that writes by write_all, it makes no difference how the writer takes the bytes
    and whether it is interrupted, whatever the application does and however the step ends. *)
Theorem C129_patient : forall T e (m : custom T) s input script,
  whole_writes (m input) -> patient script ->
  cstep e m s input script = cstep e m s input [].
Proof. exact @outlet_patient. Qed.
Print Assumptions C129_patient.

(** C129: if the code moreover hands on errors, as the application does, then a step that succeeds,
    with whatever writer, has written all that it writes to one that takes everything. *)
Theorem C129_complete : forall T e (m : custom T) s input script st out s',
  polite e -> hands_on (m input) ->
  cstep e m s input script = (Ok st, out, s') -> cstep e m s input [] = (Ok st, out, s').
Proof. exact @outlet_complete. Qed.
Print Assumptions C129_complete.

(** C129: step64 is step, with base64 around what is read and written; lines that are no base64 are
    refused without the mechanism noticing. *)
Theorem C129_lines : forall T e (m : custom T) s line x r out s', line_for line x ->
  cstep64 e m s line = (r, out, s') ->
  match x with
  | None => r = Err EBase64 /\ out = [] /\ s' = s
  | Some input => exists o, cstep e m s input [] = (r, o, s') /\ out = encode o
  end.
Proof. exact @outlet_lines. Qed.
Print Assumptions C129_lines.

(** A mechanism that writes "hello ", then, if there is one, a name from within the request for it. *)
Definition ex_hello : custom nat := fun input =>
  GWriteAll (lit "hello ") (fun r =>
    match r with
    | Some x => GDone (Err x)
    | None =>
      GNeed PAuthId empty_provider
        (fun name : bytes => GWriteAll name (fun r =>
           match r with Some x => GDone (Err x) | None => GSet 1 (GDone (Ok tt)) end))
        (fun r => match r with inl x => GDone (Err x) | inr _ => GDone (Ok Running) end)
    end).
Definition ex_named : env := ex_env (fun _ => ex_cb [mk_entry PAuthId (lit "user")]) no_vcb no_chan.
Definition ex_fresh : csession nat := mk_csession 0 [] 0 None.
Example C129_example :
  (forall input, whole_writes (ex_hello input) /\ hands_on (ex_hello input)) /\
  patient [WAccept 2; WInterrupt; WAccept 5] /\
  fst (cstep ex_named ex_hello ex_fresh None [WAccept 2; WInterrupt; WAccept 5])
    = (Ok Running, lit "hello user") /\
  fst (cstep ex_named ex_hello ex_fresh None [WAccept 9; WAccept 0])
    = (Err (EIo IoWriteZero), lit "hello ").
Proof.
  split; [|split; [|split; vm_compute; reflexivity]].
  - intros input. split.
    + cbn. intros [x|]; [exact Logic.I|]. split; [intros v [x|]; exact Logic.I|intros [x|o]; exact Logic.I].
    + cbn. split; [reflexivity|]. split; [intros v; split; [reflexivity|exact Logic.I]|].
      split; [reflexivity|intros o; exact Logic.I].
  - repeat (apply Forall_cons; [first [left; reflexivity|right; eexists; reflexivity]|]). apply Forall_nil.
Qed.
Example C129_example_polite : polite ex_named.
Proof. intros tr sd c. split; [reflexivity|exact Logic.I]. Qed.
(** The application has to play along: one that keeps the error to itself makes the step succeed
    although the name was not written. *)
Example C129_example_swallowed :
  let e := ex_env (fun _ => CSatisfy PAuthId (lit "user") (fun _ => CRet None)) no_vcb no_chan in
  fst (cstep e ex_hello ex_fresh None [WAccept 9; WFail 3]) = (Ok Running, lit "hello ") /\
  fst (cstep e ex_hello ex_fresh None []) = (Ok Running, lit "hello user").
Proof. split; vm_compute; reflexivity. Qed.
(** So has the mechanism: one that calls write once may have written a part only. *)
Example C129_example_once :
  let m : custom nat := fun _ => GWrite (lit "hello") (fun _ => GDone (Ok Running)) in
  fst (cstep ex_named m ex_fresh None [WAccept 2]) = (Ok Running, lit "he") /\
  fst (cstep ex_named m ex_fresh None []) = (Ok Running, lit "hello").
Proof. split; vm_compute; reflexivity. Qed.
Example C129_example_lines :
  line_for (Some (lit "YWJj")) (Some (Some (lit "abc"))) /\ line_for (Some (lit "*")) None /\
  fst (cstep64 ex_named ex_hello ex_fresh (Some (lit "YWJj"))) = (Ok Running, lit "aGVsbG8gdXNlcg==") /\
  cstep64 ex_named ex_hello ex_fresh (Some (lit "*")) = (Err EBase64, [], ex_fresh).
Proof.
  split; [change (lit "YWJj") with (encode (lit "abc")); constructor|].
  split; [|split; vm_compute; reflexivity].
  constructor. intros b H.
  assert (D : decode (lit "*") = Some b) by (rewrite H; apply Base64Facts.decode_encode).
  vm_compute in D. discriminate D.
Qed.
