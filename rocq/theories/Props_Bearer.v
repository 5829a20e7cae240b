(** Property theorems about what OAUTHBEARER and XOAUTH2 servers read. *)
From Coq Require Import NArith.
From Verif Require Import Bytes Utf8 Types World CallbackSpec Simple OAuth ScramParser Session
  Spec_Simple Spec_Callback Spec_OAuth Spec_Wire Spec_ScramText Spec_Grammar Spec_Bearer ExampleEnv
  Proof_Bearer Props_OAuth.

(** The example of RFC 7628, section 4.1, and one with an identity provider's query string. *)
Definition ex_pairs : list (bytes * bytes) :=
  [(lit "host", lit "server.example.com"); (lit "port", lit "143");
   (lit "auth", lit "Bearer vF9dft4qmTc2Nvb3RlckBhbHRhdmlzdGEuY29tCg==")].
Definition ex_query : list (bytes * bytes) :=
  [(lit "qs", lit "a=b"); (lit "auth", lit "Bearer x")].
Definition ex_response z pairs : bytes :=
  gs2_text CbNotSupported z ++ concat (map kv_text pairs) ++ [chr 1; chr 1].

Lemma ex_is_response : is_response (ex_response (Some (lit "user@example.com")) ex_pairs)
    (Some (lit "user@example.com")) ex_pairs.
Proof.
  split; [reflexivity|]. split.
  - intros x [= <-]. split; [|apply lit_free; reflexivity].
    split; [|vm_compute; discriminate].
    split; [discriminate|]. split; [apply Proof_Utf8.utf8_exact; reflexivity|]. split; apply lit_free; reflexivity.
  - apply pairs_ok. reflexivity.
Qed.
Lemma ex_query_response : is_response (ex_response None ex_query) None ex_query.
Proof.
  split; [reflexivity|]. split; [discriminate|]. apply pairs_ok. reflexivity.
Qed.

(** C86 as stated is false: the server does not read every response of the grammar. *)
Theorem C86_reads_refuted :
  ~ (forall e s m z pairs t script r out s',
       s_mech s = XOAuthBearerS OsInitial -> is_response m z pairs -> tokens pairs = [t] ->
       step e s (Some m) script = (r, out, s') ->
       exists evs, new_events s s' evs /\
         consulted evs POAuthBearerValidate (fun c => offers_oauthbearer c z t (others pairs))).
Proof.
  intros H. destruct (step ex_oa (ex_at (XOAuthBearerS OsInitial)) (Some (ex_response None ex_query)) [])
    as [[r out] s'] eqn:E.
  destruct (H ex_oa (ex_at (XOAuthBearerS OsInitial)) _ _ _ (lit "Bearer x") _ _ _ _ eq_refl ex_query_response eq_refl E) as (evs & N & c & rest & -> & _).
  vm_compute in E. injection E as <- <- <-. discriminate N.
Qed.
Print Assumptions C86_reads_refuted.

(** It refuses all of those in which the value of another key contains "=", and the
    application is not asked. *)
Theorem C86_equals : forall e s m z pairs p script,
  s_mech s = XOAuthBearerS OsInitial -> is_response m z pairs -> In p (others pairs) -> In "="%char (snd p) ->
  exists s', step e s (Some m) script = (Err (EMech (MOAuthBearerParse ObInvalidKVPair)), [], s') /\
    s_trace s' = s_trace s.
Proof. exact equals_refused. Qed.
Print Assumptions C86_equals.

(** It reads the others, with one token, as they are meant. *)
Theorem C86_reads_partial : forall e s m z pairs t script r out s',
  s_mech s = XOAuthBearerS OsInitial -> is_response m z pairs -> tokens pairs = [t] ->
  (forall p, In p (others pairs) -> free "="%char (snd p)) ->
  step e s (Some m) script = (r, out, s') ->
  exists evs, new_events s s' evs /\
    consulted evs POAuthBearerValidate (fun c => offers_oauthbearer c z t (others pairs)).
Proof. exact response_consulted. Qed.
Print Assumptions C86_reads_partial.

(** Nor does it read only those: keys need not be letters, values need not be printable, and
    after the authorization identity there may be anything. *)
Definition ex_outside : bytes :=
  lit "n,,anything" ++ chr 1 :: lit "9=" ++ chr 0 :: chr 1 :: lit "auth=x" ++ [chr 1; chr 1].
Theorem C86_only_refuted :
  ~ (forall e s m script r out s' evs Q,
       s_mech s = XOAuthBearerS OsInitial -> step e s (Some m) script = (r, out, s') ->
       new_events s s' evs -> consulted evs POAuthBearerValidate Q ->
       exists z pairs, is_response m z pairs).
Proof.
  intros H. destruct (step ex_oa (ex_at (XOAuthBearerS OsInitial)) (Some ex_outside) []) as [[r out] s'] eqn:E.
  destruct (bearer_step ex_oa (ex_at (XOAuthBearerS OsInitial)) _ _ _ _ _ eq_refl E) as (evs & N & [(z & t & pairs & R & C)|(-> & _)]).
  - destruct (H ex_oa (ex_at (XOAuthBearerS OsInitial)) _ _ _ _ _ _ _ eq_refl E N C) as (z' & pairs' & M & Z & _).
    unfold ex_outside, gs2_text in M. destruct z' as [z'|]; [discriminate M|].
    destruct pairs' as [|[k v] pairs']; discriminate M.
  - vm_compute in E. injection E as <- <- <-. discriminate N.
Qed.
Print Assumptions C86_only_refuted.

(** Exactly what it reads: the application is asked about what the message says, or the
    message is not readable and is refused before the application is asked. *)
Theorem C86_exact_partial : forall e s m script r out s',
  s_mech s = XOAuthBearerS OsInitial -> step e s (Some m) script = (r, out, s') ->
  exists evs, new_events s s' evs /\
    ((exists z t pairs, readable m z t pairs /\
        consulted evs POAuthBearerValidate (fun c => offers_oauthbearer c z t (others pairs))) \/
     (evs = [] /\ out = [] /\ (exists x, r = Err (EMech (MOAuthBearerParse x))) /\
      forall z t pairs, ~ readable m z t pairs)).
Proof. exact bearer_step. Qed.
Print Assumptions C86_exact_partial.

Example C86_example :
  let m := ex_response (Some (lit "user@example.com")) ex_pairs in
  let s := step ex_oa (ex_at (XOAuthBearerS OsInitial)) (Some m) [] in
  let q := step ex_oa (ex_at (XOAuthBearerS OsInitial)) (Some (ex_response None ex_query)) [] in
  is_response m (Some (lit "user@example.com")) ex_pairs /\
  m = lit "n,a=user@example.com," ++ chr 1 :: lit "host=server.example.com" ++ chr 1 :: lit "port=143" ++ chr 1 ::
      lit "auth=Bearer vF9dft4qmTc2Nvb3RlckBhbHRhdmlzdGEuY29tCg==" ++ [chr 1; chr 1] /\
  tokens ex_pairs = [lit "Bearer vF9dft4qmTc2Nvb3RlckBhbHRhdmlzdGEuY29tCg=="] /\
  others ex_pairs = [(lit "host", lit "server.example.com"); (lit "port", lit "143")] /\
  fst s = (Ok (Finished false), []) /\ length (s_trace (snd s)) = 3 /\
  fst q = (Err (EMech (MOAuthBearerParse ObInvalidKVPair)), []) /\
  In (lit "qs", lit "a=b") (others ex_query).
Proof.
  intros m s q. split; [exact ex_is_response|]. repeat split; try (vm_compute; reflexivity). left. reflexivity.
Qed.

(** C87 *)
Theorem C87_exact : forall e s m script r out s',
  s_mech s = XXOAuth2S OsInitial -> step e s (Some m) script = (r, out, s') ->
  exists evs, new_events s s' evs /\
    ((exists u t, m = xoauth2_message u t /\ free (chr 1) u /\ utf8_text u /\ utf8_text t /\
        consulted evs PXOAuth2Validate (fun c => offers_xoauth2 c u t)) \/
     (evs = [] /\ out = [] /\ (exists x, r = Err (EMech x)) /\
      forall u t, m = xoauth2_message u t -> free (chr 1) u -> utf8_text u -> utf8_text t -> False)).
Proof. exact xoauth2_step. Qed.
Print Assumptions C87_exact.

(** The token may contain anything, even a second one; a message that ends too early is refused. *)
Example C87_example :
  let go m := step ex_oa (ex_at (XXOAuth2S OsInitial)) (Some m) [] in
  let m := lit "user=" ++ chr 1 :: lit "auth=Bearer x" ++ chr 1 :: lit "auth=Bearer y" ++ [chr 1; chr 1] in
  let p := xoauth2_provider [] (lit "x" ++ chr 1 :: lit "auth=Bearer y") in
  fst (go m) = (Ok (Finished false), []) /\
  s_trace (snd (go m)) = [EvRequest PXOAuth2Validate p; EvAnswer PXOAuth2Validate None; EvValidate p] /\
  fst (go (lit "user=u" ++ chr 1 :: lit "auth=Bearer x" ++ [chr 1])) = (Err (EMech MXOAuth2InvalidFormat), []).
Proof. vm_compute. repeat split. Qed.
