(** Specification of requests, actions and channel binding sources. *)
From Verif Require Import Bytes Types World CallbackSpec.

(** The first value a callback program satisfies [q] with. Up to that call every result the
    program sees is determined: calls for other properties answer Ok/None, a failing closure
    yields its own error. *)
Fixpoint first_value (q : prop) (p : cbprog) : option (pval q) :=
  match p with
  | CRet _ => None
  | CSatisfy p v k =>
      match @castp p q v with Some x => Some x | None => first_value q (k None) end
  | CSatisfyWith p c k =>
      match prop_eq_dec p q with
      | left E => match c with
                  | inl x => first_value q (k (Some x))
                  | inr v => Some (eq_rect p pval v q E)
                  end
      | right _ => first_value q (k None)
      end
  | CGetAction _ k => first_value q (k None)
  | CIs p k => first_value q (k (if prop_eq_dec p q then true else false))
  end.

(** A callback program with all calls removed that do not concern the request: other
    properties, or the other kind of request. *)
Fixpoint strip (r : reqkind) (p : cbprog) : cbprog :=
  match p with
  | CRet x => CRet x
  | CSatisfy p v k =>
      match r with
      | RSatisfy q => if prop_eq_dec p q then CSatisfy p v (fun x => strip r (k x))
                      else strip r (k None)
      | RAction _ => strip r (k None)
      end
  | CSatisfyWith p c k =>
      match r with
      | RSatisfy q => if prop_eq_dec p q then CSatisfyWith p c (fun x => strip r (k x))
                      else strip r (k None)
      | RAction _ => strip r (k None)
      end
  | CGetAction p k =>
      match r with
      | RSatisfy _ => strip r (k None)
      | RAction q => if prop_eq_dec p q then CGetAction p (fun x => strip r (k x))
                     else strip r (k None)
      end
  | CIs p k => CIs p (fun b => strip r (k b))
  end.

Definition with_cb (e : env) (cb : list event -> sdata -> ctx -> reqkind -> cbprog) : env :=
  mk_env (e_sd e) cb (e_vcb e) (e_vtag e) (e_chan e) (e_rng e) (e_hash e) (e_hmac e)
    (e_pbkdf2 e) (e_saslprep e) (e_json_to e) (e_json_from e) (e_gss_name e) (e_gss_cred e)
    (e_gss_step e) (e_gss_complete e) (e_gss_flags e) (e_gss_wrap e) (e_gss_unwrap e).

Definition strip_env (e : env) : env :=
  with_cb e (fun tr sd c r => strip r (e_cb e tr sd c r)).

(** Calls a callback makes, with what they returned to it. *)
Inductive call :=
| KSatisfy (p : prop) (v : pval p) (r : cres)
| KSatisfyWith (p : prop) (f : serr + pval p) (r : cres)
| KGet (p : prop) (r : option (pval p))
| KIs (p : prop) (b : bool).

(** The program makes exactly these calls, is given these answers, and returns [x]. *)
Inductive follows : cbprog -> list call -> cres -> Prop :=
| fo_ret x : follows (CRet x) [] x
| fo_sat p v k r cs x : follows (k r) cs x -> follows (CSatisfy p v k) (KSatisfy p v r :: cs) x
| fo_with p f k r cs x :
    follows (k r) cs x -> follows (CSatisfyWith p f k) (KSatisfyWith p f r :: cs) x
| fo_get p k r cs x : follows (k r) cs x -> follows (CGetAction p k) (KGet p r :: cs) x
| fo_is p k b cs x : follows (k b) cs x -> follows (CIs p k) (KIs p b :: cs) x.

(** The answers during an action request for [q] with value [v]: the first get_action for
    [q] yields [v], every other one None; satisfy calls are Ok. *)
Inductive action_answers (q : prop) (v : pval q) : bool -> list call -> Prop :=
| aa_nil b : action_answers q v b []
| aa_sat b p x cs : action_answers q v b cs -> action_answers q v b (KSatisfy p x None :: cs)
| aa_with b p x cs :
    action_answers q v b cs -> action_answers q v b (KSatisfyWith p x None :: cs)
| aa_take cs : action_answers q v false cs -> action_answers q v true (KGet q (Some v) :: cs)
| aa_again cs : action_answers q v false cs -> action_answers q v false (KGet q None :: cs)
| aa_other b p cs :
    p <> q -> action_answers q v b cs -> action_answers q v b (KGet p None :: cs)
| aa_is b p cs :
    action_answers q v b cs ->
    action_answers q v b (KIs p (if prop_eq_dec p q then true else false) :: cs).

(** The callback called get_action for [q]. *)
Definition took (q : prop) (cs : list call) : bool :=
  existsb (fun k => match k with
                    | KGet p _ => if prop_eq_dec p q then true else false
                    | _ => false
                    end) cs.

(** The callback returned Ok, or bubbled up the EarlyReturn of a satisfied request. *)
Definition returned_ok (r : cres) : bool :=
  match r with None | Some ECbEarlyReturn => true | _ => false end.
