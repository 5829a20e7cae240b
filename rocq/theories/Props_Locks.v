(** C121: callbacks are not called recursively. *)
From Coq Require Import List.
From Verif Require Import Bytes Types World CallbackSpec Simple OAuth Scram Gssapi Session Custom Spec_Flow Spec_Locks
  ExampleEnv ExampleScram Proof_Locks.
Import ListNotations.

(** docs/decisions/0003: an application that holds a lock while its callback runs. *)
Definition locking_app (l : list entry) : env :=
  ex_env (fun k => match k with
                   | RSatisfy q => fold_right (fun (en : entry) p => let (q', v) := en in CSatisfy q' v (fun _ => p))
                                     (CSatisfyWith q (inl ECbNoValue) (fun _ => CRet None)) l
                   | RAction q => CGetAction q (fun _ => CRet None)
                   end) no_vcb no_chan.
Lemma locking_app_locks l : locking (locking_app l).
Proof.
  intros tr c q. cbn. induction l as [|[q' v] l IH]; cbn [fold_right]; [constructor|]. constructor. intros x. exact IH.
Qed.

(** C121 is false for mechanisms of other crates: need_with takes [&self], and the closure of one call
    can make another. *)
Definition nested_mechanism : Custom.custom unit := fun _ =>
  GNeed PAuthId [] (fun _ => GNeed PPassword [] (fun _ => GDone (Ok tt)) (fun _ => GDone (Ok tt)))
    (fun _ => GDone (Ok Running)).
Theorem C121_custom_refuted :
  ~ (forall T (m : Custom.custom T) e s input script, locking e -> cs_trace s = [] ->
       lock false (cs_trace (snd (cstep e m s input script))) <> None).
Proof.
  intros H.
  apply (H unit nested_mechanism (locking_app [mk_entry PAuthId (lit "user"); mk_entry PPassword (lit "secret")])
    (mk_csession tt [] 0 None) None []); [apply locking_app_locks|reflexivity|vm_compute; reflexivity].
Qed.
Print Assumptions C121_custom_refuted.

(** C121: in sessions of the built-in mechanisms, a callback is not called while the application's
    callback is running, and such a lock is released at the end of every step that does not panic... *)
Theorem C121_step_partial : forall e s input script r out s', locking e -> lock false (s_trace s) = Some false ->
  step e s input script = (r, out, s') ->
  exists h, lock false (s_trace s') = Some h /\ (r <> Panic -> h = false).
Proof. exact step_unlocked. Qed.
Print Assumptions C121_step_partial.
(** ... and so in whole exchanges. *)
Theorem C121_dialogue_partial : forall e, locking e -> forall l s, lock false (s_trace s) = Some false ->
  Forall (fun y => fst y <> Panic) (dialogue e s l) ->
  lock false (s_trace (after e s l)) = Some false.
Proof. exact dialogue_unlocked. Qed.
Print Assumptions C121_dialogue_partial.

(** A PLAIN client and such an application, which is asked three times. *)
Example C121_example :
  let e := locking_app [mk_entry PAuthId (lit "user"); mk_entry PPassword (lit "secret")] in
  locking e /\
  fst (fst (step e (ex_at XPlainC) None [])) = Ok (Finished true) /\
  length (filter (fun ev => match ev with EvRequest _ _ => true | _ => false end)
    (s_trace (snd (step e (ex_at XPlainC) None [])))) = 3 /\
  length (filter (fun ev => match ev with EvClosure _ => true | _ => false end)
    (s_trace (snd (step e (ex_at XPlainC) None [])))) = 3.
Proof.
  cbv zeta. split; [apply locking_app_locks|]. split; [vm_compute; reflexivity|]. split; vm_compute; reflexivity.
Qed.
(** The lock tells nested calls from consecutive ones. *)
Example C121_lock_example :
  lock false [EvRequest PAuthId []; EvAnswer PAuthId (lit "user"); EvClosure PAuthId; EvRequest PPassword []; EvClosure PPassword]
    = Some false /\
  lock false [EvRequest PAuthId []; EvAnswer PAuthId (lit "user"); EvRequest PPassword []; EvClosure PPassword; EvClosure PAuthId]
    = None.
Proof. split; reflexivity. Qed.
