(** Vocabulary for errors of the application that end an exchange. *)
From Verif Require Import Bytes Types World CallbackSpec.

(** The callback [p] of an announcement ends with the error [x], whether or not it takes the
    value announced. *)
Fixpoint insists (p : cbprog) (x : serr) : Prop :=
  match p with
  | CRet r => r = Some x
  | CSatisfy _ _ k => insists (k None) x
  | CSatisfyWith _ _ k => insists (k None) x
  | CGetAction _ k => forall o, insists (k o) x
  | CIs _ k => forall b, insists (k b) x
  end.

(** After the events [tr] the application answers to [ev] with the error [x]: an
    error-propagating callback does so instead of satisfying a request, or does so when
    something is announced to it, or the validation callback does so. [NoValue] and
    [EarlyReturn] are not errors of the application (callback.rs:183-209). *)
Definition fatal (e : env) (tr : list event) (ev : event) (x : serr) : Prop :=
  match ev with
  | EvRequest q c =>
      bubbling (e_cb e tr (e_sd e) c (RSatisfy q)) /\
      answer q (e_cb e tr (e_sd e) c (RSatisfy q)) = inl (Some x) /\
      x <> ECbNoValue /\ x <> ECbEarlyReturn
  | EvAction q _ c =>
      insists (e_cb e tr (e_sd e) c (RAction q)) x /\ x <> ECbNoValue /\ x <> ECbEarlyReturn
  | EvValidate c =>
      exists v, x = EValidation v /\
        forall slot, fst (run_validate (e_vtag e) (e_vcb e tr (e_sd e) c) slot) = Some v
  | _ => False
  end.

(** The SCRAM client tells the application its keys (scram/client.rs:434-441). *)
Definition offers_keys (ev : event) : Prop :=
  match ev with EvAction PScramCachedPassword _ _ => True | _ => False end.

(** Only what the application's own calls leave behind. *)
Definition only_calls (evs : list event) : Prop :=
  Forall (fun ev => match ev with EvClosure _ | EvTaken _ => True | _ => False end) evs.
