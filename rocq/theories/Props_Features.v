(** C100, C101, C102: the features a program is built with. *)
From Coq Require Import Lia Permutation.
From Verif Require Import Bytes Utf8 Types World CallbackSpec Num Simple OAuth ScramParser Scram Gssapi Session Registry Apps
  Interop Features Spec_Simple Spec_OAuth Spec_ScramText Spec_Scram Spec_Registry Spec_Order Spec_History Spec_Talk
  Spec_Creds Spec_Features ExampleEnv ExampleScram Proof_Features.

(** * C100: more features *)

(** A client that can start with some mechanism still can when more is compiled in, and what it selects
    has no lower priority; a server that starts a mechanism starts it in the same state. *)
Theorem C100_start : forall f g reg reg',
  enables f g -> default_registry f reg -> default_registry g reg' ->
  (forall cb offered i m, client_start reg cb default_prefer offered = Ok (i, m) ->
     exists i' m', client_start reg' cb default_prefer offered = Ok (i', m') /\ d_priority m <= d_priority m') /\
  (forall name i m, server_start reg name = Ok (i, m) -> server_start reg' name = Ok (i, m)).
Proof.
  exact (fun f g reg reg' E H H' => conj (fun cb o i m => features_add f g reg reg' cb o i m E H H')
    (fun n i m => servers_same f g reg reg' n i m E H H')).
Qed.
Print Assumptions C100_start.

(** Features for mechanisms that the server does not offer change nothing for a client. *)
Theorem C100_unoffered : forall f g cb offered, enables f g ->
  (forall m, compiled g m = true -> compiled f m = false -> ~ candidate cb offered m) ->
  client_start (default_of f) cb default_prefer offered = client_start (default_of g) cb default_prefer offered.
Proof. exact unoffered_change_nothing. Qed.
Print Assumptions C100_unoffered.

(** Clients made from credentials get to the end with any features that leave them one of the offered
    mechanisms, and use the best of those. *)
Theorem C100_credentials : forall f e1 e2 sa z a p offered,
  crypto_ok e2 -> same_crypto e1 e2 ->
  (forall x, z = Some x -> carried_name e2 x) -> carried_name e2 a -> carried e2 p ->
  Forall is_builtin (ap_registry sa) ->
  (forall n, In n offered -> exists m, In m (get_available (ap_registry sa)) /\ d_name m = n) ->
  (forall m, In m (credentials_order (given z)) -> compiled f m = true -> In (d_name m) offered ->
     has_user (session_env e2 sa SServer m) m z a p) ->
  (exists m, In m (credentials_order (given z)) /\ compiled f m = true /\ In (d_name m) offered) ->
  exists m mc ms, compiled f m = true /\
    client_start (ap_registry (credentials_client_of f z a p)) false default_prefer offered = Ok (Builtin mc, m) /\
    server_start (ap_registry sa) (d_name m) = Ok (Builtin ms, m) /\
    exists c s evs x,
      completes (session_env e1 (credentials_client_of f z a p) SClient m) (session_env e2 sa SServer m) m
        (new_session mc) (new_session ms) c s /\
      new_events (new_session ms) s evs /\ validations evs = [x] /\ shows m x z a p.
Proof. exact credentials_work_of. Qed.
Print Assumptions C100_credentials.

Theorem C100_credentials_choice : forall f z offered,
  match client_start (credentials_of f z) false default_prefer offered with
  | Ok (i, m) =>
      compiled f m = true /\ In (d_name m) offered /\ fresh_client m i /\
      exists l1 l2, credentials_order z = l1 ++ m :: l2 /\
        forall x, In x l1 -> ~ (compiled f x = true /\ In (d_name x) offered)
  | Err _ => forall x, In x (credentials_order z) -> ~ (compiled f x = true /\ In (d_name x) offered)
  | Panic => False
  end.
Proof. exact credentials_choice_of. Qed.
Print Assumptions C100_credentials_choice.

(** A program with only PLAIN; another crate of it wants XOAUTH2. *)
Definition ex_only_plain : features := mk_features false false false false true false false false false false.
Definition ex_and_xoauth2 : features := mk_features false false false false true false true false false false.
Lemma ex_more : enables ex_only_plain ex_and_xoauth2.
Proof. split; [intros [[] ?| | | | | | | |?]|]; cbn; auto. Qed.
Definition ex_names : list bytes := [lit "PLAIN"; lit "XOAUTH2"].

(** Full claim, false: a client that got its first message out still does. It may now select a
    mechanism that its application knows nothing about. *)
Theorem C100_working_refuted : ~ (forall e app f g reg reg' offered mc m mc' m',
  enables f g -> default_registry f reg -> default_registry g reg' ->
  client_start reg false default_prefer offered = Ok (Builtin mc, m) ->
  client_start reg' false default_prefer offered = Ok (Builtin mc', m') ->
  gets_going (session_env e app SClient m) mc -> gets_going (session_env e app SClient m') mc').
Proof.
  intros H.
  destruct (H ex_empty (credentials_client None (lit "user") (lit "secret")) ex_only_plain ex_and_xoauth2
    [DPlain] [DPlain; DXOAuth2] ex_names XPlainC DPlain (XXOAuth2C OcInitial) DXOAuth2) as (st & out & s' & E).
  - exact ex_more.
  - reflexivity.
  - reflexivity.
  - vm_compute. reflexivity.
  - vm_compute. reflexivity.
  - eexists _, _, _. vm_compute. reflexivity.
  - vm_compute in E. discriminate E.
Qed.
Print Assumptions C100_working_refuted.

Example C100_example :
  enables ex_only_plain ex_and_xoauth2 /\ default_registry ex_only_plain [DPlain] /\
  default_registry ex_and_xoauth2 [DPlain; DXOAuth2] /\
  client_start [DPlain] false default_prefer ex_names = Ok (Builtin XPlainC, DPlain) /\
  client_start [DPlain; DXOAuth2] false default_prefer ex_names = Ok (Builtin (XXOAuth2C OcInitial), DXOAuth2) /\
  server_start [DPlain] (lit "PLAIN") = Ok (Builtin XPlainS, DPlain) /\
  (forall m, compiled ex_and_xoauth2 m = true -> compiled ex_only_plain m = false ->
     ~ candidate false [lit "PLAIN"; lit "LOGIN"] m) /\
  client_start (credentials_of ex_only_plain false) false default_prefer
    [lit "LOGIN"; lit "SCRAM-SHA-256"; lit "PLAIN"] = Ok (Builtin XPlainC, DPlain).
Proof.
  split; [exact ex_more|]. split; [reflexivity|]. split; [reflexivity|]. split; [reflexivity|].
  split; [reflexivity|]. split; [reflexivity|]. split; [|reflexivity].
  intros [[] ?| | | | | | | |?] A B; cbn in A, B; try discriminate.
  intros (n & I & ->). cbn in I. destruct I as [I|[I|[]]]; discriminate I.
Qed.

(** * C101: features select mechanisms *)

(** What is available by default: of what is compiled in, all but the -PLUS mechanisms and, without the
    static registry, GSSAPI. *)
Theorem C101_available_partial : forall f reg m, default_registry f reg ->
  (In m reg <-> compiled f m = true /\ (forall a, m <> DScram a true) /\ (m = DGssapi -> ft_static f = true)).
Proof. exact (fun f reg m => registered f reg m). Qed.
Print Assumptions C101_available_partial.

Theorem C101_available_refuted : ~ (forall f reg m, default_registry f reg ->
  (In m reg <-> compiled f m = true)).
Proof.
  intros H. destruct (proj2 (H (documented_features false) _ DGssapi eq_refl) eq_refl) as [E|[E|[E|[]]]]; discriminate E.
Qed.
Print Assumptions C101_available_refuted.

(** The example in the documentation: a name it lists that is not available, and the other way round. *)
Theorem C101_documented_refuted : forall static reg, default_registry (documented_features static) reg ->
  ~ (forall n, In n documented_names -> exists m, In m reg /\ d_name m = n) /\
  ~ (forall m, In m reg -> In (d_name m) documented_names).
Proof.
  intros static reg H. split; intros D.
  - destruct (D (lit "SCRAM-SHA-256-PLUS")) as (m & I & N); [right; right; right; left; reflexivity|].
    exact (no_plus _ _ SHA256 H (ex_intro _ m (conj I N))).
  - destruct (D (DScram SHA512 false)) as [N|[N|[N|[N|[]]]]]; [|discriminate N..].
    apply (registered _ _ (DScram SHA512 false) H). split; [reflexivity|]. split; discriminate.
Qed.
Print Assumptions C101_documented_refuted.

Example C101_example :
  default_registry (documented_features false) [DScram SHA512 false; DScram SHA256 false; DPlain] /\
  default_registry (documented_features true) [DGssapi; DScram SHA512 false; DScram SHA256 false; DPlain] /\
  compiled (documented_features false) (DScram SHA256 true) = true.
Proof.
  split; [reflexivity|]. split; [|reflexivity]. apply (Permutation_app_comm [DGssapi]).
Qed.

(** * C102: link order *)

(** What a client selects does not depend on the order in which the linker collects the mechanisms if
    no other candidate has the priority of the selected one; the priority of what it selects never does. Servers
    start the same session. *)
Theorem C102_order_partial : forall f reg reg', default_registry f reg -> default_registry f reg' ->
  (forall cb offered,
     match client_start reg cb default_prefer offered, client_start reg' cb default_prefer offered with
     | Ok (i, m), Ok (i', m') =>
         d_priority m = d_priority m' /\ (untied (candidate cb offered) reg m -> (i, m) = (i', m'))
     | Err x, Err y => x = y
     | _, _ => False
     end) /\
  (forall name i m, server_start reg name = Ok (i, m) -> server_start reg' name = Ok (i, m)).
Proof.
  exact (fun f reg reg' H H' => conj (fun cb o => link_order f reg reg' cb o H H')
    (fun n i m => servers_same f f reg reg' n i m (conj (fun _ A => A) (fun A => A)) H H')).
Qed.
Print Assumptions C102_order_partial.

(** Full claim, false: SCRAM-SHA-256 or SCRAM-SHA-512. *)
Definition ex_sha2 : features := mk_features false true false false false false false false false true.
Theorem C102_order_refuted : ~ (forall f reg reg' cb offered, default_registry f reg -> default_registry f reg' ->
  client_start reg cb default_prefer offered = client_start reg' cb default_prefer offered).
Proof.
  intros H. specialize (H ex_sha2 [DScram SHA512 false; DScram SHA256 false] [DScram SHA256 false; DScram SHA512 false]
    false [lit "SCRAM-SHA-256"; lit "SCRAM-SHA-512"] (Permutation_refl _) (perm_swap _ _ _)).
  vm_compute in H. discriminate H.
Qed.
Print Assumptions C102_order_refuted.

(** Two orders, and an offer with a single best candidate. *)
Definition ex_order1 : list mechanism := [DGssapi; DScram SHA512 false; DScram SHA256 false; DPlain].
Definition ex_order2 : list mechanism := [DScram SHA512 false; DScram SHA256 false; DPlain; DGssapi].
Example C102_example :
  default_registry (documented_features true) ex_order1 /\ default_registry (documented_features true) ex_order2 /\
  untied (candidate false [lit "PLAIN"; lit "GSSAPI"; lit "SCRAM-SHA-512"]) ex_order1 (DScram SHA512 false) /\
  client_start ex_order1 false default_prefer [lit "PLAIN"; lit "GSSAPI"; lit "SCRAM-SHA-512"] =
    Ok (Builtin (XScramC SHA512 (Some (ScInitial ClientNoSupport))), DScram SHA512 false) /\
  client_start ex_order1 false default_prefer [lit "PLAIN"; lit "GSSAPI"] = Ok (Builtin XPlainC, DPlain) /\
  client_start ex_order2 false default_prefer [lit "PLAIN"; lit "GSSAPI"] = Ok (Builtin (XGssapiC GcInitial), DGssapi).
Proof.
  split; [apply (Permutation_app_comm [DGssapi])|]. split; [apply Permutation_refl|].
  split; [|split; [|split]; vm_compute; reflexivity].
  intros x I (n & In1 & Cx) P. destruct I as [<-|[<-|[<-|[<-|[]]]]]; cbn in P; try discriminate P; try reflexivity.
  cbn in Cx. destruct Cx as [->|[? _]]; [|discriminate]. cbn in In1. destruct In1 as [E|[E|[E|[]]]]; discriminate E.
Qed.
