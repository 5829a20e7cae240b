(** C123. *)
From Coq Require Import List NArith.
From Verif Require Import Bytes Types World CallbackSpec Simple OAuth Scram Gssapi Session Custom
  Spec_Simple ExampleEnv ExampleScram Spec_Decline Spec_Flow Proof_Decline.
Import ListNotations.

(** C123: whether an application declines a request with Ok or with NoValue (or hands back
    EarlyReturn although it satisfied nothing) makes no difference, and for a property the
    mechanisms cannot do without neither does NoCallback. *)
Theorem C123_declines_partial : forall e cb' s l, declines_alike demanded (e_cb e) cb' ->
  dialogue (set_cb e cb') s l = dialogue e s l /\ after (set_cb e cb') s l = after e s l.
Proof. exact dialogue_declines. Qed.
Print Assumptions C123_declines_partial.

(** C123 for mechanisms of other crates: Ok and NoValue are the same to them too. *)
Theorem C123_custom : forall T e cb' (m : custom T) s input script,
  declines_alike [] (e_cb e) cb' ->
  cstep (set_cb e cb') m s input script = cstep e m s input script.
Proof. exact @cstep_declines. Qed.
Print Assumptions C123_custom.

(** C123: a step that asks for such a property ends with NoCallback if the application always
    declines it, in whichever way. *)
Theorem C123_demanded : forall e s input script r out s' q c,
  In q demanded -> (forall tr sd c, declines q (e_cb e tr sd c (RSatisfy q))) ->
  step e s input script = (r, out, s') ->
  (exists pre post, s_trace s' = s_trace s ++ pre ++ EvRequest q c :: post) ->
  r = Err (ECbNoCallback q).
Proof. exact declined_fails. Qed.
Print Assumptions C123_demanded.

(** C123: the faulty example of the documentation is faulty whenever the password is at hand: no
    step that asks for AuthId gets it. *)
Theorem C123_faulty : forall e pw u s input script r out s' c,
  (forall tr sd c k, e_cb e tr sd c k = faulty pw u true) ->
  step e s input script = (r, out, s') ->
  (exists pre post, s_trace s' = s_trace s ++ pre ++ EvRequest PAuthId c :: post) ->
  r = Err (ECbNoCallback PAuthId).
Proof.
  intros e pw u s input script r out s' c Hc. apply declined_fails; [left; reflexivity|].
  intros. rewrite Hc. apply faulty_declines.
Qed.
Print Assumptions C123_faulty.

(** An application with most values that declines [q] with [r]. *)
Definition ex_decl_cb (q : prop) (r : cres) (k : reqkind) : cbprog :=
  match k with
  | RSatisfy p =>
      if prop_eq_dec p q then CRet r
      else ex_cb [mk_entry PAuthId (lit "user"); mk_entry PPassword (lit "secret");
                  mk_entry POAuthBearerToken (lit "token"); mk_entry PGssService (lit "imap");
                  mk_entry PHostname (lit "host")]
  | RAction _ => CRet None
  end.
Definition ex_decl (q : prop) (r : cres) : env := ex_env (ex_decl_cb q r) no_vcb no_chan.

Lemma ex_cb_ends (R : cres -> cres -> Prop) vals : (forall r, R r r) -> ends_rel R (ex_cb vals) (ex_cb vals).
Proof.
  intros HR. induction vals as [|[p v] vals IH]; cbn [ex_cb]; constructor; [apply HR|].
  intros [x|]; [constructor; apply HR|exact IH].
Qed.
Lemma ex_decl_alike l q : In q l ->
  declines_alike l (e_cb (ex_decl q None)) (e_cb (ex_decl q (Some (ECbNoCallback q)))).
Proof.
  intros I tr sd c [p|p]; cbn [ex_decl ex_env e_cb ex_decl_cb].
  - destruct (prop_eq_dec p q) as [->|N].
    + right. exists q. split; [reflexivity|]. split; [exact I|].
      split; constructor; [left; left; reflexivity|right; reflexivity].
    + left. apply ex_cb_ends. intros r. left. reflexivity.
  - left. constructor. left. reflexivity.
Qed.

(** Where an application is asked for the optional property [q]. *)
Definition ex_where (q : prop) : session * option bytes :=
  match q with
  | PAuthzId => (ex_at XPlainC, None)
  | PAnonymousToken => (ex_at XAnonymousC, None)
  | POAuthBearerKV => (ex_at (XOAuthBearerC OcInitial), None)
  | POverrideCBType | PChannelBindings => (ex_c Supported, None)
  | PScramCachedPassword | PSaltedPassword => (ex_bs1, Some ex_b2)
  | PScramStoredPassword => (ex_s false, Some (lit "n,,n=user,r=abc"))
  | _ => (ex_at (XGssapiS (GsPending [GAccept])), Some (lit "tok"))
  end.

(** C123, refuted: for a property the mechanisms can do without, NoCallback is not the same as Ok
    (callback.rs:72): it ends the exchange. *)
Theorem C123_declines_refuted : forall q, In q optional ->
  ~ (forall e cb' s input script, declines_alike [q] (e_cb e) cb' ->
       fst (step (set_cb e cb') s input script) = fst (step e s input script)).
Proof.
  intros q Hq H.
  specialize (H _ _ (fst (ex_where q)) (snd (ex_where q)) [] (ex_decl_alike [q] q (or_introl eq_refl))).
  repeat (destruct Hq as [<-|Hq]; [vm_compute in H; discriminate|]). destruct Hq.
Qed.
Print Assumptions C123_declines_refuted.

(** What happens to the two applications: Ok goes on, unless channel binding is impossible, and
    NoCallback always fails. *)
Example C123_declines_example :
  let run q r := let '(s, i) := ex_where q in fst (fst (step (ex_decl q r) s i [])) in
  map (fun q => run q None) optional
  = [Ok (Finished true); Ok (Finished true); Ok Running;
     Err (EMissingChannelBindingData (lit "tls-unique"));
     Err (EMissingChannelBindingData (lit "tls-unique"));
     Ok Running; Ok Running; Ok Running; Ok Running] /\
  map (fun q => run q (Some (ECbNoCallback q))) optional
  = map (fun q => Err (ECbNoCallback q)) optional /\
  map (fun q => run q (Some ECbNoValue)) optional = map (fun q => run q None) optional.
Proof. vm_compute. repeat split. Qed.

(** Two applications that differ in saying Ok, NoValue and NoCallback: the one has no password and
    no AuthzId, the other neither. *)
Definition ex_decl_none : callback_of := fun _ _ _ k => ex_decl_cb PPassword None k.
Definition ex_decl_some : callback_of := fun _ _ _ k =>
  match k with
  | RSatisfy PPassword => CRet (Some (ECbNoCallback PPassword))
  | RSatisfy PAuthzId =>
      CSatisfy PAuthId (lit "user") (fun r => match r with Some e => CRet (Some e) | None =>
      CSatisfy PPassword (lit "secret") (fun r => match r with Some e => CRet (Some e) | None =>
      CSatisfy POAuthBearerToken (lit "token") (fun r => match r with Some e => CRet (Some e) | None =>
      CSatisfy PGssService (lit "imap") (fun r => match r with Some e => CRet (Some e) | None =>
      CSatisfy PHostname (lit "host") (fun r => match r with Some e => CRet (Some e) | None =>
      CRet (Some ECbNoValue) end) end) end) end) end)
  | _ => ex_decl_cb PPassword None k
  end.
Example C123_declines_hypothesis :
  let e := set_cb (ex_decl PPassword None) ex_decl_none in
  declines_alike demanded (e_cb e) ex_decl_some /\
  fst (step e (ex_at XPlainC) None [])
  = (Err (ECbNoCallback PPassword), zero :: lit "user" ++ [zero]) /\
  step (set_cb e ex_decl_some) (ex_at XPlainC) None [] = step e (ex_at XPlainC) None [] /\
  fst (step e (ex_at (XOAuthBearerC OcInitial)) None [])
  = fst (step (set_cb e ex_decl_some) (ex_at (XOAuthBearerC OcInitial)) None []) /\
  fst (fst (step e (ex_at (XOAuthBearerC OcInitial)) None [])) = Ok Running.
Proof.
  cbn zeta. split.
  - intros tr sd c k.
    assert (R : ends_rel (same_end k) (ex_decl_cb PPassword None k) (ex_decl_cb PPassword None k)).
    { destruct k as [p|p]; cbn [ex_decl_cb]; [|constructor; left; reflexivity].
      destruct (prop_eq_dec p PPassword); [constructor; left; reflexivity|].
      apply ex_cb_ends. intros r. left. reflexivity. }
    destruct k as [p|p]; [|left; exact R].
    destruct p; try (left; exact R).
    + left. cbn. do 5 (constructor; intros [?|]; [constructor; left; reflexivity|]).
      constructor. right. unfold content. auto.
    + right. exists PPassword. unfold demanded. cbn.
      split; [reflexivity|]. split; [auto|]. split; constructor; unfold content; auto.
  - vm_compute. repeat split.
Qed.

Definition ex_decl_custom : custom unit := fun _ =>
  GNeed PAuthzId [] (fun _ => GDone (Ok tt)) (fun r =>
    match r with
    | inr None => GWriteAll (lit "nobody") (fun _ => GDone (Ok Running))
    | inr (Some _) => GDone (Ok (Finished false))
    | inl x => GDone (Err x)
    end).
Example C123_custom_example :
  declines_alike [] (fun _ _ _ k => match k with RSatisfy _ => CRet None | _ => CRet None end)
    (fun _ _ _ k => match k with RSatisfy _ => CRet (Some ECbNoValue) | _ => CRet None end) /\
  let run r := fst (cstep (ex_env (fun _ => CRet r) no_vcb no_chan) ex_decl_custom
                      (mk_csession tt [] 0 None) None []) in
  run None = (Ok Running, lit "nobody") /\ run (Some ECbNoValue) = run None /\
  run (Some (ECbNoCallback PAuthzId)) = (Err (ECbNoCallback PAuthzId), []).
Proof.
  split.
  - intros tr sd c [p|p]; left; constructor; unfold same_end, content; auto.
  - vm_compute. repeat split.
Qed.

Example C123_demanded_example :
  let e := ex_decl PPassword (Some ECbNoValue) in
  In PPassword demanded /\
  (forall tr sd c, declines PPassword (e_cb e tr sd c (RSatisfy PPassword))) /\
  fst (fst (step e (ex_at (XLoginC LcPassword)) (Some []) [])) = Err (ECbNoCallback PPassword) /\
  s_trace (snd (step e (ex_at (XLoginC LcPassword)) (Some []) [])) = [EvRequest PPassword []].
Proof.
  split; [cbn; auto|]. split; [intros; constructor; unfold content; auto|].
  vm_compute. repeat split.
Qed.

(** With no password at hand the example does as it should. *)
Example C123_faulty_example :
  let run cached := step (ex_env (fun _ => faulty (lit "pw") (lit "user") cached) no_vcb no_chan)
                      (ex_at XPlainC) None [] in
  fst (run true) = (Err (ECbNoCallback PAuthId), [zero]) /\
  s_trace (snd (run true)) = [EvRequest PAuthzId []; EvRequest PAuthId []] /\
  fst (run false) = (Ok (Finished true), zero :: lit "user" ++ zero :: lit "pw").
Proof. vm_compute. repeat split. Qed.
