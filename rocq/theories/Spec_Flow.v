(** What an exchange depends on: two applications that differ in some values only. *)
From Verif Require Import Bytes Types World Session.

Definition callback_of := list event -> sdata -> ctx -> reqkind -> cbprog.
Definition validator_of := list event -> sdata -> ctx -> vprog.
Definition kdf_of := alg -> bytes -> bytes -> N -> bytes.

(** Another application in the same surroundings, with another PBKDF2 function. *)
Definition set_apps (e : env) (cb : callback_of) (vcb : validator_of) (kdf : kdf_of) : env :=
  mk_env (e_sd e) cb vcb (e_vtag e) (e_chan e) (e_rng e) (e_hash e) (e_hmac e) kdf
    (e_saslprep e) (e_json_to e) (e_json_from e) (e_gss_name e) (e_gss_cred e) (e_gss_step e)
    (e_gss_complete e) (e_gss_flags e) (e_gss_wrap e) (e_gss_unwrap e).

(** [answers_rel vr p p']: the two callbacks make the same calls, with answers related by [vr]. *)
Inductive answers_rel (vr : forall q, pval q -> pval q -> Prop) : cbprog -> cbprog -> Prop :=
| AR_ret r : answers_rel vr (CRet r) (CRet r)
| AR_satisfy q v v' k k' : vr q v v' -> (forall r, answers_rel vr (k r) (k' r)) ->
    answers_rel vr (CSatisfy q v k) (CSatisfy q v' k')
| AR_with q v v' k k' : vr q v v' -> (forall r, answers_rel vr (k r) (k' r)) ->
    answers_rel vr (CSatisfyWith q (inr v) k) (CSatisfyWith q (inr v') k')
| AR_fails q x k k' : (forall r, answers_rel vr (k r) (k' r)) ->
    answers_rel vr (CSatisfyWith q (inl x) k) (CSatisfyWith q (inl x) k')
| AR_action q k k' : (forall r, answers_rel vr (k r) (k' r)) ->
    answers_rel vr (CGetAction q k) (CGetAction q k')
| AR_is q k k' : (forall r, answers_rel vr (k r) (k' r)) ->
    answers_rel vr (CIs q k) (CIs q k').

(** The two validation callbacks make the same calls, with any values. *)
Inductive values_rel : vprog -> vprog -> Prop :=
| VR_ret r : values_rel (VRet r) (VRet r)
| VR_finalize t x x' k k' : values_rel k k' -> values_rel (VFinalize t x k) (VFinalize t x' k')
| VR_with t x x' k k' : (forall r, values_rel (k r) (k' r)) ->
    values_rel (VWith t (inr x) k) (VWith t (inr x') k')
| VR_fails t y k k' : (forall r, values_rel (k r) (k' r)) ->
    values_rel (VWith t (inl y) k) (VWith t (inl y) k')
| VR_is t k k' : (forall r, values_rel (k r) (k' r)) -> values_rel (VIs t k) (VIs t k').

(** The same events, with answers related by [vr]. *)
Inductive event_rel (vr : forall q, pval q -> pval q -> Prop) : event -> event -> Prop :=
| ER_same ev : event_rel vr ev ev
| ER_answer q v v' : vr q v v' -> event_rel vr (EvAnswer q v) (EvAnswer q v').

(** Two applications that, after the same history, make the same calls, with answers related by
    [vr] and any validation values. *)
Definition apps_rel (vr : forall q, pval q -> pval q -> Prop)
    (sd : sdata) (cb cb' : callback_of) (vcb vcb' : validator_of) : Prop :=
  forall tr tr', Forall2 (event_rel vr) tr tr' ->
    (forall c k, answers_rel vr (cb tr sd c k) (cb' tr' sd c k)) /\
    (forall c, values_rel (vcb tr sd c) (vcb' tr' sd c)).

(** Two sessions in the same state, up to a history as above. *)
Record session_rel (vr : forall q, pval q -> pval q -> Prop) (s s' : session) : Prop := {
  sn_mech : s_mech s' = s_mech s;
  sn_rng : s_rng s' = s_rng s;
  sn_trace : Forall2 (event_rel vr) (s_trace s) (s_trace s');
  sn_val : s_val s = None <-> s_val s' = None }.

(** A dialogue, one step after the other: the results and the bytes written ... *)
Fixpoint dialogue (e : env) (s : session) (l : list (option bytes * list wresp))
  : list (res serr state * bytes) :=
  match l with
  | [] => []
  | (input, script) :: l =>
      match step e s input script with
      | (r, out, s') => (r, out) :: dialogue e s' l
      end
  end.
(** ... and the session in the end. *)
Fixpoint after (e : env) (s : session) (l : list (option bytes * list wresp)) : session :=
  match l with
  | [] => s
  | (input, script) :: l => after e (snd (step e s input script)) l
  end.

(** The same answers. *)
Definition same_answer (q : prop) (v v' : pval q) : Prop := v = v'.

(** The same answers, except that a password is replaced by one from which the other function
    derives the same salted passwords. *)
Inductive same_key (kdf kdf' : kdf_of) : forall q, pval q -> pval q -> Prop :=
| SK_other q v : q <> PPassword -> same_key kdf kdf' q v v
| SK_password p p' : (forall a salt i, kdf a p salt i = kdf' a p' salt i) ->
    same_key kdf kdf' PPassword p p'.
