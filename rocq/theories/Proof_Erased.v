(** Lemmas about type erasure. *)
From Coq Require Import Eqdep_dec NArith.
From Verif Require Import Bytes Types World WorldFacts Erased Spec_Erased.

Lemma of_to p v : of_kind p (to_kind p v) = v.
Proof. destruct p; reflexivity. Qed.
Lemma kind_refl p (x : kval (kind_of p)) E : eq_rect (kind_of p) kval x (kind_of p) E = x.
Proof. rewrite <- (eq_rect_eq_dec kind_eq_dec kval x E). reflexivity. Qed.
Lemma kind_dec_refl {A} p (a b : A) : (if kind_eq_dec (kind_of p) (kind_of p) then a else b) = a.
Proof. destruct (kind_eq_dec _ _); [reflexivity|congruence]. Qed.
Lemma read_ptr p v : read_option p (RSome (ptr p v)) = Fine (Some v).
Proof.
  cbn [read_option ptr]. destruct (kind_eq_dec _ _) as [E|E]; [|congruence].
  rewrite kind_refl, of_to. reflexivity.
Qed.
Lemma pass_same q v : pass q q v = Fine v.
Proof.
  unfold pass. destruct (kind_eq_dec _ _) as [E|E]; [|congruence]. rewrite kind_refl, of_to. reflexivity.
Qed.

Section ids.
Variable tid : tag -> N.
Hypothesis D : distinct_ids tid.

Lemma is_same t r : er_is tid t (mk_erased t r) = true.
Proof. apply N.eqb_refl. Qed.
Lemma is_other t t' r : t <> t' -> er_is tid t (mk_erased t' r) = false.
Proof. intros N. apply N.eqb_neq. intros E. exact (N (D _ _ E)). Qed.
Lemma down_same t r : fits t r = true -> downcast_mut tid t (mk_erased t r) = Fine (Some r).
Proof. intros F. unfold downcast_mut. rewrite is_same. cbn [er_raw]. rewrite F. reflexivity. Qed.
Lemma down_other t t' r : t <> t' -> downcast_mut tid t (mk_erased t' r) = Fine None.
Proof. intros N. unfold downcast_mut. rewrite (is_other _ _ _ N). reflexivity. Qed.

(** * Contexts *)

Definition slot_of (q : prop) (o : option (pval q)) : raw :=
  match o with Some v => RSome (ptr q v) | None => RNone end.
Lemma read_slot q o : read_option q (slot_of q o) = Fine o.
Proof. destruct o; [apply read_ptr|reflexivity]. Qed.
Lemma fits_ref q o : fits (Optional (Ref (DemandTag q))) (slot_of q o) = true.
Proof. destruct o; cbn; [apply kind_dec_refl|reflexivity]. Qed.
Lemma fits_mut q o : fits (Optional (RefMut (DemandTag q))) (slot_of q o) = true.
Proof. destruct o; cbn; [apply kind_dec_refl|reflexivity]. Qed.

Definition after {A} (l : list A) (o : option A) : option A := match last_of l with Some x => Some x | None => o end.
Lemma last_cons {A} (x : A) l o : after (x :: l) o = after l (Some x).
Proof.
  unfold after, last_of. cbn [rev]. destruct (rev l) as [|y r] eqn:E; [reflexivity|]. reflexivity.
Qed.

Lemma run_ref q pr : forall o, run_provider tid pr (mk_erased (Optional (Ref (DemandTag q))) (slot_of q o)) =
  Fine (mk_erased (Optional (Ref (DemandTag q))) (slot_of q (after (given_for false q pr) o))).
Proof.
  induction pr as [|p v k IH|p v k IH]; intros o; [reflexivity| |]; cbn [run_provider given_for].
  - unfold demand_provide. destruct (prop_eq_dec p q) as [->|N].
    + rewrite (down_same _ _ (fits_ref q o)). cbn [er_tag]. rewrite castp_refl, last_cons. exact (IH true (Some v)).
    + rewrite down_other by congruence. rewrite castp_neq by exact N. exact (IH false o).
  - unfold demand_provide. rewrite down_other by congruence. exact (IH false o).
Qed.
Lemma run_mut q pr : forall o, run_provider tid pr (mk_erased (Optional (RefMut (DemandTag q))) (slot_of q o)) =
  Fine (mk_erased (Optional (RefMut (DemandTag q))) (slot_of q (after (given_for true q pr) o))).
Proof.
  induction pr as [|p v k IH|p v k IH]; intros o; [reflexivity| |]; cbn [run_provider given_for].
  - unfold demand_provide. rewrite down_other by congruence. exact (IH false o).
  - unfold demand_provide. destruct (prop_eq_dec p q) as [->|N].
    + rewrite (down_same _ _ (fits_mut q o)). cbn [er_tag]. rewrite castp_refl, last_cons. exact (IH true (Some v)).
    + rewrite down_other by congruence. rewrite castp_neq by exact N. exact (IH false o).
Qed.
Lemma after_none {A} (l : list A) : after l None = last_of l.
Proof. unfold after. destruct (last_of l); reflexivity. Qed.

Theorem any_provider pr q :
  er_get_ref tid pr q = Fine (last_of (given_for false q pr)) /\
  er_get_mut tid pr q = Fine (last_of (given_for true q pr)).
Proof.
  unfold er_get_ref, er_get_mut, demand_new. change RNone with (slot_of q None). rewrite run_ref, run_mut.
  cbn [er_raw]. rewrite !read_slot, !after_none. split; reflexivity.
Qed.
Lemma chain_gives c q : last_of (given_for false q (chain c)) = get_ref c q.
Proof.
  induction c as [|[p v] c IH]; [reflexivity|]. cbn [chain given_for get_ref].
  destruct (@castp p q v); [reflexivity|exact IH].
Qed.
Lemma chain_mut c q : given_for true q (chain c) = [].
Proof. induction c as [|[p v] c IH]; [reflexivity|exact IH]. Qed.
Theorem contexts c q :
  er_get_ref tid (chain c) q = Fine (get_ref c q) /\ er_get_mut tid (chain c) q = Fine None.
Proof.
  destruct (any_provider (chain c) q) as [A B]. rewrite A, B, chain_gives, chain_mut. split; reflexivity.
Qed.

(** * Requests *)

Lemma request_there q : the_request tid q (request_satisfy q) = Fine (Some (kind_of q)).
Proof. unfold the_request, request_satisfy. rewrite down_same; [reflexivity|]. cbn. apply kind_dec_refl. Qed.
Lemma request_not p q : p <> q -> the_request tid p (request_satisfy q) = Fine None.
Proof. intros N. unfold the_request, request_satisfy. rewrite down_other by congruence. reflexivity. Qed.
Lemma no_action p q : er_get_action tid p (request_satisfy q) = Fine (None, request_satisfy q).
Proof. unfold er_get_action, request_satisfy. rewrite down_other by congruence. reflexivity. Qed.
Lemma is_request p q : request_is tid p (request_satisfy q) = if prop_eq_dec p q then true else false.
Proof.
  unfold request_is, request_satisfy. rewrite (is_other (Action p)) by congruence. rewrite Bool.orb_false_r.
  destruct (prop_eq_dec p q) as [->|N]; [apply is_same|apply is_other; congruence].
Qed.

Theorem satisfying L G q (f : pval q -> M L G) pr : forall st l w,
  er_satisfy tid q f pr (request_satisfy q) st l w = Fine (run_satisfy q f pr st l w).
Proof.
  induction pr as [r|p v k IH|p c k IH|p k IH|p k IH]; intros st l w; [reflexivity| | | |];
    cbn [er_satisfy run_satisfy].
  - destruct (prop_eq_dec p q) as [->|N].
    + rewrite request_there, pass_same, castp_refl.
      destruct (cr_satisfy q f st v l w) as [[[[?|?|] ?] ?] ?]; [apply IH|apply IH|reflexivity].
    + rewrite (request_not _ _ N), castp_neq by exact N. apply IH.
  - destruct (prop_eq_dec p q) as [->|N].
    + rewrite request_there. destruct c as [x|v]; [apply IH|]. rewrite pass_same, castp_refl.
      destruct (cr_satisfy q f st v l _) as [[[[?|?|] ?] ?] ?]; [apply IH|apply IH|reflexivity].
    + rewrite (request_not _ _ N). apply IH.
  - rewrite no_action. apply IH.
  - rewrite is_request. apply IH.
Qed.

Lemma left_fits q slot : fits (Action q) (er_raw (left_over q slot)) = true.
Proof. destruct slot; cbn; [apply kind_dec_refl|reflexivity]. Qed.
Lemma left_not p q slot : the_request tid p (left_over q slot) = Fine None.
Proof. unfold the_request, left_over. rewrite down_other by congruence. reflexivity. Qed.
Lemma left_is p q slot : request_is tid p (left_over q slot) = if prop_eq_dec p q then true else false.
Proof.
  unfold request_is, left_over. rewrite (is_other (RefMut (Satisfy p))) by congruence. cbn [orb].
  destruct (prop_eq_dec p q) as [->|N]; [apply is_same|apply is_other; congruence].
Qed.
Lemma left_get q slot : er_get_action tid q (left_over q slot) = Fine (slot, left_over q None).
Proof.
  unfold er_get_action. unfold left_over at 1. rewrite down_same by (apply left_fits).
  change (match slot with Some v => RSome (ptr q v) | None => RNone end) with (slot_of q slot).
  rewrite read_slot. reflexivity.
Qed.
Lemma left_other p q slot : p <> q -> er_get_action tid p (left_over q slot) = Fine (None, left_over q slot).
Proof. intros N. unfold er_get_action, left_over. rewrite down_other by congruence. reflexivity. Qed.

Theorem acting q pr : forall slot tr,
  er_action tid pr (left_over q slot) tr =
  let '(r, slot', tr') := run_action q pr slot tr in Fine (r, left_over q slot', tr').
Proof.
  induction pr as [r|p v k IH|p c k IH|p k IH|p k IH]; intros slot tr; [reflexivity| | | |];
    cbn [er_action run_action].
  - rewrite left_not. apply IH.
  - rewrite left_not. apply IH.
  - destruct (prop_eq_dec p q) as [E|N].
    + subst p. rewrite left_get. destruct slot as [v|]; [|apply IH].
      cbn [eq_sym eq_rect]. apply IH.
    + rewrite (left_other _ _ _ N). apply IH.
  - rewrite left_is. apply IH.
Qed.

(** * Validation *)

Lemma slot_fits t slot : fits (Valid t) (er_raw (validate_slot t slot)) = true.
Proof. destruct slot; cbn; [apply Nat.eqb_refl|reflexivity]. Qed.
Lemma slot_empty t t' slot : empty_slot tid t (validate_slot t' slot) =
  Fine (Nat.eqb t t' && match slot with None => true | Some _ => false end).
Proof.
  unfold empty_slot. destruct (Nat.eqb_spec t t') as [->|N]; unfold validate_slot.
  - rewrite down_same by (apply slot_fits). destruct slot; reflexivity.
  - rewrite down_other by congruence. reflexivity.
Qed.
Theorem validating t p : forall slot,
  er_validate tid p (validate_slot t slot) =
  let '(r, slot') := run_validate t p slot in Fine (r, validate_slot t slot').
Proof.
  induction p as [r|t' x k IH|t' f k IH|t' k IH]; intros slot; [reflexivity| | |]; cbn [er_validate run_validate].
  - rewrite slot_empty. destruct (Nat.eqb_spec t' t) as [->|N]; [|apply IH].
    destruct slot as [y|]; [apply IH|]. cbn [andb]. apply (IH (Some x)).
  - rewrite slot_empty. destruct (Nat.eqb_spec t' t) as [->|N]; [|apply IH].
    destruct slot as [y|]; [apply IH|]. cbn [andb]. destruct f as [e|x]; [apply IH|apply (IH None (Some x))].
  - replace (er_is tid (Valid t') (validate_slot t slot)) with (Nat.eqb t' t); [apply IH|].
    destruct (Nat.eqb_spec t' t) as [->|N]; symmetry; [apply is_same|apply is_other; congruence].
Qed.
End ids.
