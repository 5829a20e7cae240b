(** C103: type erasure. *)
From Coq Require Import NArith Lia.
From Verif Require Import Bytes Types World Erased Spec_Erased Proof_Erased.

(** However a callback uses the request for [q] it is given (for whatever properties it tries), no
    value is taken for one of another type, and what happens is what the rest of the model says. *)
Theorem C103_satisfy : forall tid, distinct_ids tid ->
  forall L G q (f : pval q -> M L G) pr st l w,
  er_satisfy tid q f pr (request_satisfy q) st l w = Fine (run_satisfy q f pr st l w).
Proof. exact (fun tid D L G q f pr => satisfying tid D L G q f pr). Qed.
Print Assumptions C103_satisfy.

Theorem C103_action : forall tid, distinct_ids tid -> forall q v pr tr,
  er_action tid pr (request_action q v) tr =
  let '(r, slot, tr') := run_action q pr (Some v) tr in Fine (r, left_over q slot, tr').
Proof. exact (fun tid D q v pr tr => acting tid D q pr (Some v) tr). Qed.
Print Assumptions C103_action.

(** The same for validation callbacks and the slot for the session's value. *)
Theorem C103_validate : forall tid, distinct_ids tid -> forall t p slot,
  er_validate tid p (validate_slot t slot) =
  let '(r, slot') := run_validate t p slot in Fine (r, validate_slot t slot').
Proof. exact validating. Qed.
Print Assumptions C103_validate.

(** Contexts of the built-in mechanisms. *)
Theorem C103_context : forall tid, distinct_ids tid -> forall c q,
  er_get_ref tid (chain c) q = Fine (get_ref c q) /\ er_get_mut tid (chain c) q = Fine None.
Proof. exact contexts. Qed.
Print Assumptions C103_context.

(** Any provider, also one that goes on after a value was taken: of the values it gives for the
    property, the last one is returned. *)
Theorem C103_provider : forall tid, distinct_ids tid -> forall pr q,
  er_get_ref tid pr q = Fine (last_of (given_for false q pr)) /\
  er_get_mut tid pr q = Fine (last_of (given_for true q pr)).
Proof. exact any_provider. Qed.
Print Assumptions C103_provider.

(** Ids as Rust promises them. *)
Fixpoint unary (n : nat) (k : positive) : positive := match n with O => xI k | S n => xO (unary n k) end.
Definition ex_index (p : prop) : nat :=
  match p with
  | PAuthId => 0 | PAuthzId => 1 | PPassword => 2 | PRealm => 3 | PHostname => 4 | PService => 5
  | PChannelBindings => 6 | PChannelBindingName => 7 | POverrideCBType => 8 | POAuthBearerToken => 9
  | POAuthBearerKV => 10 | POAuthBearerValidate => 11 | POAuthBearerErrored => 12 | PXOAuth2Validate => 13
  | PXOAuth2Error => 14 | PAnonymousToken => 15 | PIterations => 16 | PSalt => 17 | PScramStoredPassword => 18
  | PScramCachedPassword => 19 | PSaltedPassword => 20 | PGssService => 21 | PGssSecurityLayer => 22
  | PCustom n => 23 + n
  end.
Definition ex_unsized (u : unsized) : positive :=
  match u with DemandTag p => unary 0 (unary (ex_index p) xH) | Satisfy p => unary 1 (unary (ex_index p) xH) end.
Fixpoint ex_code (t : tag) : positive :=
  match t with
  | Ref u => unary 0 (ex_unsized u) | RefMut u => unary 1 (ex_unsized u) | Optional t => unary 2 (ex_code t)
  | Action p => unary 3 (unary (ex_index p) xH) | Valid v => unary 4 (unary v xH)
  end.
Definition ex_tid (t : tag) : N := Npos (ex_code t).
Lemma unary_inj n : forall m k j, unary n k = unary m j -> n = m /\ k = j.
Proof.
  induction n as [|n IH]; intros [|m] k j E; cbn in E; try discriminate E; injection E as E.
  - split; [reflexivity|exact E].
  - destruct (IH _ _ _ E) as [-> ->]. split; reflexivity.
Qed.
Lemma index_inj p q : ex_index p = ex_index q -> p = q.
Proof. destruct p, q; cbn; intros E; try discriminate E; try reflexivity. f_equal. lia. Qed.
Lemma ex_ids : distinct_ids ex_tid.
Proof.
  assert (U : forall u v, ex_unsized u = ex_unsized v -> u = v).
  { intros [p|p] [q|q]; unfold ex_unsized; intros E; apply unary_inj in E as [N E]; try discriminate N;
      apply unary_inj in E as [E _]; apply index_inj in E; congruence. }
  intros a b E. injection E as E. revert b E.
  induction a as [u|u|a IH|p|v]; intros [u'|u'|b|p'|v'] E; cbn [ex_code] in E; apply unary_inj in E as [N E];
    try discriminate N.
  - f_equal. exact (U _ _ E).
  - f_equal. exact (U _ _ E).
  - f_equal. exact (IH _ E).
  - apply unary_inj in E as [E _]. f_equal. exact (index_inj _ _ E).
  - apply unary_inj in E as [E _]. f_equal. exact E.
Qed.

(** A callback that tries the password before the user name, and a provider that goes on; and, without
    distinct ids, a number taken for text. *)
Definition ex_prog : cbprog :=
  CSatisfy PPassword (lit "secret") (fun r => match r with
    | Some x => CRet (Some x)
    | None => CSatisfy PAuthId (lit "user") (fun r => CRet r) end).
Definition ex_provider : provider :=
  PRef PIterations 4096%N (fun _ => PRef PAuthId (lit "one") (fun b => PRef PAuthId (lit "two") (fun _ => PDone))).
Example C103_example :
  distinct_ids ex_tid /\
  run_satisfy PAuthId (fun x => ret (L:=unit) x) ex_prog CrOpen tt (mk_world [] [] [] 0 None)
    = (Ok (Some ECbEarlyReturn), CrSatisfied (lit "user"), tt, mk_world [] [] [EvAnswer PAuthId (lit "user")] 0 None) /\
  er_get_ref ex_tid ex_provider PAuthId = Fine (Some (lit "two")) /\
  er_get_ref (fun _ => 0%N) (chain [mk_entry PIterations 4096%N]) PAuthId = UB.
Proof. split; [exact ex_ids|]. split; [reflexivity|]. split; vm_compute; reflexivity. Qed.
