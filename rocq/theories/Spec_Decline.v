(** Declining a request: how an application says that it has nothing to answer (C123). *)
From Verif Require Import Bytes Types World Session Spec_Flow.

(** callback.rs:72: returning Ok and returning NoCallback are both correct; session.rs:370-374: so is
    NoValue. EarlyReturn is what a satisfy call hands back. *)
Definition content (r : cres) : Prop :=
  r = None \/ r = Some ECbNoValue \/ r = Some ECbEarlyReturn.

(** The two ends of a callback make no difference, as the documentation has it: for a request that
    asks for a value and for one that announces something. *)
Definition same_end (k : reqkind) (r r' : cres) : Prop :=
  r = r' \/
  match k with
  | RSatisfy _ => content r /\ content r'
  | RAction _ => (r = None \/ r = Some ECbEarlyReturn) /\ (r' = None \/ r' = Some ECbEarlyReturn)
  end.

(** The two callbacks make the same calls and differ only in how they end. *)
Inductive ends_rel (R : cres -> cres -> Prop) : cbprog -> cbprog -> Prop :=
| NR_ret r r' : R r r' -> ends_rel R (CRet r) (CRet r')
| NR_satisfy q v k k' : (forall r, ends_rel R (k r) (k' r)) ->
    ends_rel R (CSatisfy q v k) (CSatisfy q v k')
| NR_with q f k k' : (forall r, ends_rel R (k r) (k' r)) ->
    ends_rel R (CSatisfyWith q f k) (CSatisfyWith q f k')
| NR_action q k k' : (forall r, ends_rel R (k r) (k' r)) ->
    ends_rel R (CGetAction q k) (CGetAction q k')
| NR_is q k k' : (forall r, ends_rel R (k r) (k' r)) -> ends_rel R (CIs q k) (CIs q k').

(** Asked for [q] the callback gives no value and says so in one of the ways above or with
    NoCallback: it may try other properties, whose calls do nothing. *)
Inductive declines (q : prop) : cbprog -> Prop :=
| DC_ret r : content r \/ r = Some (ECbNoCallback q) -> declines q (CRet r)
| DC_satisfy p v k : p <> q -> declines q (k None) -> declines q (CSatisfy p v k)
| DC_with p f k : p <> q -> declines q (k None) -> declines q (CSatisfyWith p f k)
| DC_action p k : declines q (k None) -> declines q (CGetAction p k)
| DC_is p k : declines q (k (if prop_eq_dec p q then true else false)) -> declines q (CIs p k).

(** The properties whose absence always makes a step fail. *)
Definition demanded : list prop :=
  [PAuthId; PPassword; POAuthBearerToken; PXOAuth2Validate; POAuthBearerValidate; PGssService;
   PHostname].
(** The properties mechanisms can do without. *)
Definition optional : list prop :=
  [PAuthzId; PAnonymousToken; POAuthBearerKV; POverrideCBType; PChannelBindings;
   PScramCachedPassword; PSaltedPassword; PScramStoredPassword; PGssSecurityLayer].

(** The other application differs only in how it declines the requests for the properties of [l]
    and in whether it says Ok or NoValue. *)
Definition declines_alike (l : list prop) (cb cb' : callback_of) : Prop :=
  forall tr sd c k,
    ends_rel (same_end k) (cb tr sd c k) (cb' tr sd c k) \/
    (exists q, k = RSatisfy q /\ In q l /\ declines q (cb tr sd c k) /\ declines q (cb' tr sd c k)).

(** The same application but for its callback. *)
Definition set_cb (e : env) (cb : callback_of) : env := set_apps e cb (e_vcb e) (e_pbkdf2 e).

(** The faulty example of callback.rs:396-409: a password that is at hand is offered whatever is
    asked for, and then the callback returns. *)
Definition faulty (password authid : bytes) (cached : bool) : cbprog :=
  if cached then CSatisfy PPassword password (fun r => CRet r)
  else CSatisfy PPassword password (fun r =>
         match r with
         | Some x => CRet (Some x)
         | None => CSatisfy PAuthId authid (fun r => CRet r)
         end).
