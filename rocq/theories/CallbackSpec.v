(** Vocabulary for statements about callbacks, independent of how requests are run. *)
From Verif Require Import Bytes Types World.

(** The world with further events observed. *)
Definition add_events (evs : list event) (w : world) : world :=
  mk_world (w_out w) (w_script w) (w_trace w ++ evs) (w_rng w) (w_val w).

(** The world with further bytes written. *)
Definition add_out (x : bytes) (w : world) : world :=
  mk_world (w_out w ++ x) (w_script w) (w_trace w) (w_rng w) (w_val w).

(** Values the mechanism received for property [q], in order. *)
Fixpoint answers (q : prop) (evs : list event) : list (pval q) :=
  match evs with
  | [] => []
  | EvAnswer p v :: r =>
      match @castp p q v with Some x => x :: answers q r | None => answers q r end
  | _ :: r => answers q r
  end.

(** Properties the user was asked for (values or actions), in order. *)
Fixpoint asked (evs : list event) : list prop :=
  match evs with
  | [] => []
  | EvRequest p _ :: r => p :: asked r
  | EvAction p _ _ :: r => p :: asked r
  | _ :: r => asked r
  end.

(** Contexts of the validate calls, in order. *)
Fixpoint validations (evs : list event) : list ctx :=
  match evs with
  | [] => []
  | EvValidate c :: r => c :: validations r
  | _ :: r => validations r
  end.

(** A callback that propagates every error a [satisfy] or [satisfy_with] returns, as the
    [?] operator does and the documentation tells users to do. *)
Fixpoint bubbling (p : cbprog) : Prop :=
  match p with
  | CRet _ => True
  | CSatisfy _ _ k => (forall e, k (Some e) = CRet (Some e)) /\ bubbling (k None)
  | CSatisfyWith _ _ k => (forall e, k (Some e) = CRet (Some e)) /\ bubbling (k None)
  | CGetAction _ k => forall o, bubbling (k o)
  | CIs _ k => forall b, bubbling (k b)
  end.

(** What such a callback answers to a request for [q]: the first value it satisfies [q]
    with, or else its own result. *)
Fixpoint answer (q : prop) (p : cbprog) : cres + pval q :=
  match p with
  | CRet r => inl r
  | CSatisfy p v k => match @castp p q v with Some x => inr x | None => answer q (k None) end
  | CSatisfyWith p c k =>
      match prop_eq_dec p q with
      | left E => match c with
                  | inl e => inl (Some e)
                  | inr v => inr (eq_rect p pval v q E)
                  end
      | right _ => answer q (k None)
      end
  | CGetAction _ k => answer q (k None)
  | CIs p k => answer q (k (if prop_eq_dec p q then true else false))
  end.

(** Whatever happened before and whatever the context: a request for [q] is answered
    with [v], by an error-propagating callback. *)
Definition provides (e : env) (q : prop) (v : pval q) : Prop :=
  forall tr c, bubbling (e_cb e tr (e_sd e) c (RSatisfy q)) /\
               answer q (e_cb e tr (e_sd e) c (RSatisfy q)) = inr v.

(** A request for [q] is left unanswered. *)
Definition withholds (e : env) (q : prop) : Prop :=
  forall tr c, bubbling (e_cb e tr (e_sd e) c (RSatisfy q)) /\
               (answer q (e_cb e tr (e_sd e) c (RSatisfy q)) = inl None \/
                answer q (e_cb e tr (e_sd e) c (RSatisfy q)) = inl (Some ECbNoValue)).

(** Provided ([Some v]) or left unanswered ([None]). *)
Definition answers_with (e : env) (q : prop) (o : option (pval q)) : Prop :=
  match o with Some v => provides e q v | None => withholds e q end.

(** The user's validate callback does not fail. *)
Definition validates (e : env) : Prop :=
  forall tr c slot, fst (run_validate (e_vtag e) (e_vcb e tr (e_sd e) c) slot) = None.

(** All callbacks propagate errors. *)
Definition polite (e : env) : Prop :=
  forall tr c k, bubbling (e_cb e tr (e_sd e) c k).

(** Closure evaluations only. *)
Definition only_closures (evs : list event) : Prop :=
  Forall (fun ev => match ev with EvClosure _ => True | _ => False end) evs.

(** Writers that never answer Ok(0). *)
Definition no_zero (s : list wresp) : Prop := Forall (fun r => r <> WAccept 0) s.

(** Outcome of an optional request answered with a value on which the mechanism ended with
    [r]: NoValue and EarlyReturn count as "nothing provided". *)
Definition polite_result {G} (r : res serr G) : res serr (option G) :=
  match r with
  | Ok g => Ok (Some g)
  | Err ECbNoValue | Err ECbEarlyReturn => Ok None
  | Err e => Err e
  | Panic => Panic
  end.

(** Outcome of an optional request if the callback provides no value and returns [r]. *)
Definition polite_none {G} (r : cres) : res serr (option G) :=
  match r with
  | None | Some ECbNoValue | Some ECbEarlyReturn => Ok None
  | Some e => Err e
  end.

(** A required request turns "nothing provided" into NoCallback. *)
Definition need_result {G} (q : prop) (r : res serr (option G)) : res serr G :=
  match r with
  | Ok (Some g) => Ok g
  | Ok None => Err (ECbNoCallback q)
  | Err x => Err x
  | Panic => Panic
  end.
