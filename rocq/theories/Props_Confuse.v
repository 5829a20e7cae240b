(** C95: messages of one mechanism are not read by the servers of another. *)
From Coq Require Import NArith.
From Verif Require Import Bytes Types World CallbackSpec Simple OAuth ScramParser Scram Gssapi Session Spec_Simple Spec_OAuth
  Spec_ScramText Spec_Scram Spec_Grammar Spec_Bearer Spec_Confuse ExampleEnv ExampleScram Proof_Confuse Props_OAuth Props_Bearer.

(** One message for three servers: a PLAIN message with the password "v,r=x,^Aauth=t^A^A", a SCRAM
    message of a user whose name contains NULs, with an extension, and an OAUTHBEARER message with
    the token "t". *)
Definition ex_trick : bytes :=
  lit "n,,n=" ++ chr 0 :: lit "u" ++ chr 0 :: lit "v,r=x," ++ chr 1 :: lit "auth=t" ++ [chr 1; chr 1].
Lemma ex_trick_taken : takes FPlain ex_trick /\ takes FScram ex_trick /\ takes FOAuthBearer ex_trick.
Proof.
  repeat split.
  - exists ex_oa, (ex_at XPlainS), []. do 3 eexists. split; [apply wt_plain; reflexivity|].
    split; [vm_compute; reflexivity|discriminate].
  - exists ex_sv, (ex_s false), []. do 3 eexists. split; [eapply wt_scram; reflexivity|].
    split; [vm_compute; reflexivity|discriminate].
  - exists ex_oa, (ex_at (XOAuthBearerS OsInitial)), []. do 3 eexists. split; [apply wt_oauthbearer; reflexivity|].
    split; [vm_compute; reflexivity|discriminate].
Qed.

Theorem C95_apart_refuted : ~ (forall k k' m, takes k m -> takes k' m -> k = k').
Proof.
  intros H. destruct ex_trick_taken as (P & S & _). pose proof (H _ _ _ P S). discriminate.
Qed.
Print Assumptions C95_apart_refuted.
(** Text without NULs does not help between SCRAM and OAUTHBEARER. *)
Theorem C95_text_refuted : ~ (forall k k' m, nul_free m -> takes k m -> takes k' m -> k = k').
Proof.
  intros H. pose (m := lit "n,,n=u,r=x," ++ chr 1 :: lit "auth=t" ++ [chr 1; chr 1]).
  assert (S : takes FScram m).
  { exists ex_sv, (ex_s false), []. do 3 eexists. split; [eapply wt_scram; reflexivity|].
    split; [vm_compute; reflexivity|discriminate]. }
  assert (B : takes FOAuthBearer m).
  { exists ex_oa, (ex_at (XOAuthBearerS OsInitial)), []. do 3 eexists. split; [apply wt_oauthbearer; reflexivity|].
    split; [vm_compute; reflexivity|discriminate]. }
  assert (N : nul_free m) by (apply nul_free_b; reflexivity).
  pose proof (H _ _ _ N S B). discriminate.
Qed.
Print Assumptions C95_text_refuted.

(** What holds: XOAUTH2 servers share no message with SCRAM and OAUTHBEARER servers, ... *)
Theorem C95_xoauth2_partial : forall m, takes FXOAuth2 m -> ~ takes FScram m /\ ~ takes FOAuthBearer m.
Proof. exact xoauth2_apart. Qed.
Print Assumptions C95_xoauth2_partial.
(** ... PLAIN servers take no message without NUL, ... *)
Theorem C95_plain_partial : forall m, nul_free m -> ~ takes FPlain m.
Proof. exact not_plain. Qed.
Print Assumptions C95_plain_partial.
(** ... and regular messages are for one mechanism only: those of PLAIN clients that name no
    authorization identity, ... *)
Theorem C95_plain_only_partial : forall a p, nul_free a -> nul_free p -> only FPlain (plain_message [] a p).
Proof. exact plain_only. Qed.
Print Assumptions C95_plain_only_partial.
(** ... those of XOAUTH2 ... *)
Theorem C95_xoauth2_only_partial : forall u t, nul_free u -> nul_free t -> only FXOAuth2 (xoauth2_message u t).
Proof. exact xoauth2_only. Qed.
Print Assumptions C95_xoauth2_only_partial.
(** ... the client responses of RFC 7628 ... *)
Theorem C95_oauthbearer_only_partial : forall m z pairs, is_response m z pairs -> only FOAuthBearer m.
Proof. exact oauthbearer_only. Qed.
Print Assumptions C95_oauthbearer_only_partial.
(** ... and SCRAM messages without extensions. *)
Theorem C95_scram_only_partial : forall m f two z user nonce,
  client_first_fields m f two z user nonce [] -> nul_free user ->
  nul_free (match z with Some z => two ++ z | None => [] end) -> only FScram m.
Proof. exact scram_only. Qed.
Print Assumptions C95_scram_only_partial.

(** Messages that are taken by their own servers. *)
Example C95_example :
  takes FPlain (plain_message [] (lit "user") (lit "secret")) /\
  takes FXOAuth2 (xoauth2_message (lit "user") (lit "tok")) /\
  is_response (ex_response (Some (lit "user@example.com")) ex_pairs) (Some (lit "user@example.com")) ex_pairs /\
  takes FOAuthBearer (ex_response (Some (lit "user@example.com")) ex_pairs) /\
  client_first_fields (lit "n,a=adm,n=user,r=abc") CbNotSupported (lit "a=") (Some (lit "adm")) (lit "user") (lit "abc") [] /\
  takes FScram (lit "n,a=adm,n=user,r=abc").
Proof.
  split; [|split; [|split; [exact (proj1 C86_example)|split; [|split]]]].
  - exists ex_oa, (ex_at XPlainS), []. do 3 eexists. split; [apply wt_plain; reflexivity|].
    split; [vm_compute; reflexivity|discriminate].
  - exists ex_oa, (ex_at (XXOAuth2S OsInitial)), []. do 3 eexists. split; [apply wt_xoauth2; reflexivity|].
    split; [vm_compute; reflexivity|discriminate].
  - exists ex_oa, (ex_at (XOAuthBearerS OsInitial)), []. do 3 eexists. split; [apply wt_oauthbearer; reflexivity|].
    split; [vm_compute; reflexivity|discriminate].
  - split; [reflexivity|]. split; [reflexivity|]. split; [exact I|]. split.
    + apply Proof_ScramText.nonce_legal. reflexivity.
    + split; [left; reflexivity|]. split; [apply Proof_Bearer.lit_free; reflexivity|].
      split; [apply Proof_Bearer.lit_free; reflexivity|]. split; reflexivity.
  - exists ex_sv, (ex_s false), []. do 3 eexists. split; [eapply wt_scram; reflexivity|].
    split; [vm_compute; reflexivity|discriminate].
Qed.
