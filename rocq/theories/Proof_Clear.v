(** Lemmas for C117. *)
From Verif Require Import Bytes BytesFacts Utf8 Types World CallbackSpec Simple OAuth Scram Gssapi Session Registry Apps Interop
  Spec_Simple Spec_Registry Spec_Order Spec_Creds Spec_Flow Spec_Derive Spec_Clear
  Proof_Simple Proof_Order Proof_Creds Proof_Flow.

Lemma hidden e z a p p' kdf offered l : scram_offered offered ->
  (forall g salt n, kdf g p' salt n = e_pbkdf2 e g p salt n) ->
  spoken e z a p offered l <> None /\
  spoken (set_kdf e kdf) z a p' offered l = spoken e z a p offered l.
Proof.
  intros [g G] K. unfold spoken. cbn [ap_registry credentials_client].
  pose proof (credentials_choice (given z) offered) as C.
  destruct (client_start (credentials_registry (given z)) false default_prefer offered) as [[i m]|x|]; [|exfalso|destruct C].
  - destruct C as (I & F & l1 & l2 & E & L).
    assert (S : exists h, m = DScram h false).
    { destruct m as [h [|]| | | | | | | |c]; eauto; exfalso;
        unfold credentials_order in E; destruct (given z);
        repeat (destruct l1 as [|? l1]; cbn [app] in E; [discriminate E|injection E; clear E; intros E ?; subst]);
        try discriminate E;
        destruct g;
        eapply (L (DScram _ false)); try exact G; cbn; tauto. }
    destruct S as [h ->]. inversion F as [a' s S'| | | | | | | | |]; subst. split; [discriminate|]. f_equal.
    refine (proj1 (flow_password (session_env e (credentials_client z a p) SClient (DScram h false))
      (fun _ _ _ _ => credentials_cb z a p') (fun _ _ _ => VRet None) kdf (new_session (XScramC h (Some (ScInitial s)))) (new_session (XScramC h (Some (ScInitial s)))) h _ l eq_refl _ _)).
    + intros tr tr' _. split; [|intros; constructor].
      intros c k. cbn [session_env with_app e_cb ap_cb credentials_client]. unfold credentials_cb.
      constructor; [constructor; discriminate|]. intros [x|]; [constructor|].
      constructor; [constructor; intros; symmetry; apply K|]. intros [x|]; [constructor|].
      destruct z; constructor; [constructor; discriminate|]. intros; constructor.
    + repeat constructor; auto.
  - refine (C (DScram g false) _ G). unfold credentials_order. destruct g; cbn; tauto.
Qed.

Lemma clear e z a p offered : (forall x : bytes, z = Some x -> nul_free x) ->
  a <> [] -> nul_free a -> utf8_valid a = true -> p <> [] -> nul_free p ->
  ~ scram_offered offered ->
  (exists m, In m (credentials_order (given z)) /\ In (d_name m) offered) ->
  said (spoken e z a p offered [(None, []); (None, [])]) p.
Proof.
  intros Z A1 A2 A3 P1 P2 N [m0 [M1 M2]]. unfold spoken. cbn [ap_registry credentials_client].
  pose proof (credentials_choice (given z) offered) as C.
  destruct (client_start (credentials_registry (given z)) false default_prefer offered) as [[i m]|x|]; [|exfalso; eapply C; eassumption|destruct C].
  destruct C as (I & F & l1 & l2 & E & L).
  assert (D : m = DPlain \/ m = DLogin).
  { assert (X : In m (credentials_order (given z))) by (rewrite E; apply in_or_app; right; left; reflexivity).
    unfold credentials_order in X. destruct (given z); cbn [In] in X; intuition (subst; auto); exfalso; apply N; eexists; exact I. }
  destruct D as [-> | ->]; inversion F; subst.
  - destruct (plain_client_complete (session_env e (credentials_client z a p) SClient DPlain) (new_session XPlainC) None z a p
      eq_refl (env_authid _ _ _ _ _) (env_password _ _ _ _ _) (env_authzid _ _ _ _ _) A1 P1 A2 P2 Z) as [s' H].
    do 2 eexists. exists (match z with Some z => z | None => [] end ++ nul :: a ++ [nul]).
    split; [reflexivity|]. cbn [dialogue]. rewrite H. left. f_equal.
    unfold plain_message. rewrite <- !app_assoc. cbn [app]. rewrite <- app_assoc. reflexivity.
  - set (ec := session_env e (credentials_client z a p) SClient DLogin).
    destruct (login_exchange ec ec (new_session (XLoginC LcAuthid)) (new_session (XLoginS LsNew)) a p eq_refl eq_refl
      (env_authid _ _ _ _ _) (env_password _ _ _ _ _) A3 None None None)
      as [s1 [s2 [c1 [c2 [_ [E2 [_ [E4 _]]]]]]]].
    exists (dialogue ec (new_session (XLoginC LcAuthid)) [(None, []); (None, [])]), (Ok (Finished true)), [].
    split; [reflexivity|]. cbn [dialogue]. rewrite E2, E4. right. left. reflexivity.
Qed.
