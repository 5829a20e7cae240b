(** C96: what SASLConfig::with_credentials is for. *)
From Coq Require Import NArith Lia.
From Verif Require Import Bytes Utf8 Types World CallbackSpec Num Simple OAuth ScramParser Scram Gssapi Session Registry Apps Interop
  Spec_Simple Spec_OAuth Spec_ScramText Spec_Scram Spec_Registry Spec_Order Spec_History Spec_Talk Spec_Creds
  ExampleEnv ExampleScram Proof_Bearer Proof_Creds.

(** Whatever of its mechanisms a server offers, as long as the client has one of them: the client
    selects a mechanism the server can start, both get to the end of the exchange, and the server's
    application is asked once, about this user. *)
Theorem C96_credentials : forall e1 e2 sa z a p offered,
  crypto_ok e2 -> same_crypto e1 e2 ->
  (forall x, z = Some x -> carried_name e2 x) -> carried_name e2 a -> carried e2 p ->
  Forall is_builtin (ap_registry sa) ->
  (forall n, In n offered -> exists m, In m (get_available (ap_registry sa)) /\ d_name m = n) ->
  (forall m, In m (credentials_order (given z)) -> In (d_name m) offered ->
     has_user (session_env e2 sa SServer m) m z a p) ->
  (exists m, In m (credentials_order (given z)) /\ In (d_name m) offered) ->
  exists m mc ms,
    client_start (ap_registry (credentials_client z a p)) false default_prefer offered = Ok (Builtin mc, m) /\
    server_start (ap_registry sa) (d_name m) = Ok (Builtin ms, m) /\
    exists c s evs x,
      completes (session_env e1 (credentials_client z a p) SClient m) (session_env e2 sa SServer m) m
        (new_session mc) (new_session ms) c s /\
      new_events (new_session ms) s evs /\ validations evs = [x] /\ shows m x z a p.
Proof. exact credentials_work. Qed.
Print Assumptions C96_credentials.

(** A server for "user" with the password "secret"; it checks passwords it is shown. *)
Definition ex_record (g : alg) : stored :=
  let salted := ex_pbkdf2 g (lit "secret") (lit "salt") 4096 in
  mk_stored 4096 (lit "salt") (ex_hash g (ex_hmac g salted (lit "Client Key"))) (ex_hmac g salted (lit "Server Key")).
Definition ex_alg (name : bytes) : alg :=
  if bytes_eqb name (lit "SCRAM-SHA-1") then SHA1 else if bytes_eqb name (lit "SCRAM-SHA-256") then SHA256 else SHA512.
Definition ex_shop : application :=
  mk_app (fun _ sd _ _ => ex_cb [mk_entry PScramStoredPassword (ex_record (ex_alg (sd_mech sd)))])
         (fun _ _ c => match get_ref c PAuthId, get_ref c PPassword with
                       | Some u, Some p => VRet (if bytes_eqb u (lit "user") && bytes_eqb p (lit "secret") then None else Some (VBoxed 1))
                       | Some u, None => VRet (if bytes_eqb u (lit "user") then None else Some (VBoxed 1))
                       | None, _ => VRet (Some (VBoxed 1))
                       end)
         [DScram SHA256 true; DScram SHA256 false; DScram SHA512 false; DScram SHA1 false; DPlain; DLogin; DAnonymous].
Lemma ex_shop_user m : In m (credentials_order false) ->
  has_user (session_env ex_empty ex_shop SServer m) m None (lit "user") (lit "secret").
Proof.
  intros I. split.
  - intros g plus ->. exists (ex_record g).
    assert (g = ex_alg (d_name (DScram g plus)) /\ plus = false) as [Eg ->].
    { cbn [credentials_order In] in I. destruct I as [I|[I|[I|[I|[I|[]]]]]]; inversion I; subst; split; reflexivity. }
    split; [|split; [split; reflexivity|split; vm_compute; discriminate]].
    intros tr c _. cbn [session_env with_app e_cb e_sd ap_cb ex_shop]. cbn [sd_mech]. rewrite <- Eg.
    split; [cbn; auto|reflexivity].
  - intros tr c slot H. cbn [session_env with_app e_vcb e_sd ap_vcb ex_shop e_vtag].
    cbn [credentials_order In] in I. destruct I as [<-|[<-|[<-|[<-|[<-|[]]]]]]; cbn [shows] in H.
    1-3: destruct H as (H1 & _ & H3); rewrite H1, H3 by discriminate; reflexivity.
    + destruct H as (_ & H1 & H2 & _). rewrite H1, H2. reflexivity.
    + destruct H as (H1 & H2 & _). rewrite H1, H2. reflexivity.
Qed.
Example C96_example :
  crypto_ok ex_empty /\ carried_name ex_empty (lit "user") /\ carried ex_empty (lit "secret") /\
  Forall is_builtin (ap_registry ex_shop) /\
  (forall m, In m (credentials_order (given (@None bytes))) ->
     has_user (session_env ex_empty ex_shop SServer m) m None (lit "user") (lit "secret")) /\
  client_start (ap_registry (credentials_client None (lit "user") (lit "secret"))) false default_prefer
    [lit "ANONYMOUS"; lit "LOGIN"; lit "SCRAM-SHA-256-PLUS"; lit "SCRAM-SHA-1"]
  = Ok (Builtin (XScramC SHA1 (Some (ScInitial ClientNoSupport))), DScram SHA1 false).
Proof.
  assert (N : forall x, forallb (fun b => negb (Ascii.eqb b nul)) x = true -> nul_free x).
  { intros x H I. rewrite forallb_forall in H. specialize (H _ I). rewrite Ascii.eqb_refl in H. discriminate. }
  split; [apply ex_crypto|]. split; [|split; [|split; [|split; [exact ex_shop_user|vm_compute; reflexivity]]]].
  - split; [|split; apply Proof_Bearer.lit_free; reflexivity].
    split; [discriminate|]. split; [reflexivity|]. split; [apply N; reflexivity|]. split; [reflexivity|discriminate].
  - split; [discriminate|]. split; [reflexivity|]. split; [apply N; reflexivity|]. split; [reflexivity|discriminate].
  - repeat constructor.
Qed.
