(** Vocabulary for what of an application a session notices (C130). *)
From Verif Require Import Bytes Types World Session Spec_Flow.

(** Another application, with other channel binding data, in the same surroundings. *)
Definition another (e : env) (cb : callback_of) (vcb : validator_of) (chan : bytes -> option bytes) : env :=
  mk_env (e_sd e) cb vcb (e_vtag e) chan (e_rng e) (e_hash e) (e_hmac e) (e_pbkdf2 e)
    (e_saslprep e) (e_json_to e) (e_json_from e) (e_gss_name e) (e_gss_cred e) (e_gss_step e)
    (e_gss_complete e) (e_gss_flags e) (e_gss_wrap e) (e_gss_unwrap e).

(** The callbacks do the same about a request for [q], apart from calls of satisfy, satisfy_with and
    get_action for other properties, which do nothing, and of is. (Those for [q] never return Ok.) *)
Inductive same_reply (q : prop) : cbprog -> cbprog -> Prop :=
| sr_ret x : same_reply q (CRet x) (CRet x)
| sr_satisfy v k k' : (forall x, same_reply q (k (Some x)) (k' (Some x))) ->
    same_reply q (CSatisfy q v k) (CSatisfy q v k')
| sr_with c k k' : (forall x, same_reply q (k (Some x)) (k' (Some x))) ->
    same_reply q (CSatisfyWith q c k) (CSatisfyWith q c k')
| sr_skip p p1 p' : passes q p p1 -> same_reply q p1 p' -> same_reply q p p'
| sr_skip' p p' p1 : passes q p' p1 -> same_reply q p p1 -> same_reply q p p'
with passes (q : prop) : cbprog -> cbprog -> Prop :=
| ps_satisfy p v k : p <> q -> passes q (CSatisfy p v k) (k None)
| ps_with p c k : p <> q -> passes q (CSatisfyWith p c k) (k None)
| ps_get p k : passes q (CGetAction p k) (k None)
| ps_is p k : p <> q -> passes q (CIs p k) (k false)
| ps_is_not k : passes q (CIs q k) (k true).

(** The same for the announcement of [q]: all calls but get_action for [q] do nothing. *)
Inductive same_taking (q : prop) : cbprog -> cbprog -> Prop :=
| st_ret x : same_taking q (CRet x) (CRet x)
| st_get k k' : (forall r, same_taking q (k r) (k' r)) ->
    same_taking q (CGetAction q k) (CGetAction q k')
| st_skip p p1 p' : ignores q p p1 -> same_taking q p1 p' -> same_taking q p p'
| st_skip' p p' p1 : ignores q p' p1 -> same_taking q p p1 -> same_taking q p p'
with ignores (q : prop) : cbprog -> cbprog -> Prop :=
| ig_satisfy p v k : ignores q (CSatisfy p v k) (k None)
| ig_with p c k : ignores q (CSatisfyWith p c k) (k None)
| ig_get p k : p <> q -> ignores q (CGetAction p k) (k None)
| ig_is p k : p <> q -> ignores q (CIs p k) (k false)
| ig_is_not k : ignores q (CIs q k) (k true).

(** The validation callbacks do the same in a session whose Validation type is [t], apart from calls of
    finalize and with for other types, which do nothing, and of is. *)
Inductive same_verdict (t : nat) : vprog -> vprog -> Prop :=
| sv_ret x : same_verdict t (VRet x) (VRet x)
| sv_finalize x k k' : same_verdict t k k' -> same_verdict t (VFinalize t x k) (VFinalize t x k')
| sv_with f k k' : (forall r, same_verdict t (k r) (k' r)) -> same_verdict t (VWith t f k) (VWith t f k')
| sv_skip p p1 p' : overlooks t p p1 -> same_verdict t p1 p' -> same_verdict t p p'
| sv_skip' p p' p1 : overlooks t p' p1 -> same_verdict t p p1 -> same_verdict t p p'
with overlooks (t : nat) : vprog -> vprog -> Prop :=
| ov_finalize u x k : u <> t -> overlooks t (VFinalize u x k) k
| ov_with u f k : u <> t -> overlooks t (VWith u f k) (k None)
| ov_is u k : u <> t -> overlooks t (VIs u k) (k false)
| ov_is_not k : overlooks t (VIs t k) (k true).

(** After the events [tr], both applications do the same about [ev]. *)
Definition alike (e e' : env) (tr : list event) (ev : event) : Prop :=
  match ev with
  | EvRequest q c => same_reply q (e_cb e tr (e_sd e) c (RSatisfy q)) (e_cb e' tr (e_sd e) c (RSatisfy q))
  | EvAction q _ c => same_taking q (e_cb e tr (e_sd e) c (RAction q)) (e_cb e' tr (e_sd e) c (RAction q))
  | EvValidate c => same_verdict (e_vtag e) (e_vcb e tr (e_sd e) c) (e_vcb e' tr (e_sd e) c)
  | EvChan name => e_chan e' name = e_chan e name
  | _ => True
  end.

(** They do the same about each of [evs] in turn. *)
Fixpoint concur (e e' : env) (tr evs : list event) : Prop :=
  match evs with
  | [] => True
  | ev :: r => alike e e' tr ev /\ concur e e' (tr ++ [ev]) r
  end.

(** A callback that offers its values one after the other, handing on errors. *)
Fixpoint offers (vals : list entry) : cbprog :=
  match vals with
  | [] => CRet None
  | existT _ p v :: r =>
      CSatisfy p v (fun x => match x with Some e => CRet (Some e) | None => offers r end)
  end.
(** The first of the values that is one for [q]. *)
Fixpoint first_for (q : prop) (vals : list entry) : option (pval q) :=
  match vals with
  | [] => None
  | existT _ p v :: r =>
      match prop_eq_dec p q with
      | left E => Some (eq_rect p pval v q E)
      | right _ => first_for q r
      end
  end.
