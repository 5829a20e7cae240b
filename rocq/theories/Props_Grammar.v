(** Property theorems about the grammar of SCRAM messages. *)
From Coq Require Import NArith Lia.
From Verif Require Import Bytes Types World ScramParser Scram Session Spec_Wire Spec_OAuth Spec_ScramText Spec_Scram
  Spec_Grammar Utf8 Proof_Utf8 ExampleEnv ExampleScram Proof_ScramText Proof_Grammar.

(** For the examples. *)
Lemma ex_value x : x <> [] -> utf8_valid x = true -> forallb (fun b => negb (Ascii.eqb b ","%char)) x = true ->
  forallb (fun b => negb (Ascii.eqb b (chr 0))) x = true -> value_text x.
Proof.
  intros N U C Z. split; [exact N|]. split; [apply utf8_exact; exact U|].
  rewrite forallb_forall in C, Z. split; intros H; [specialize (C _ H)|specialize (Z _ H)]; discriminate.
Qed.
Lemma ex_attr a v : letter a -> value_text v -> attr_val (a :: "="%char :: v).
Proof. intros L V. exists a, v. auto. Qed.
Lemma ex_x1 : attr_val (lit "x=1").
Proof.
  apply ex_attr; [right; vm_compute; split; discriminate|apply ex_value; [discriminate|reflexivity..]].
Qed.
Lemma ex_nonce x : x <> [] -> forallb nonce_char x = true -> nonce_text x.
Proof. intros N H. split; [exact N|]. apply nonce_legal. exact H. Qed.

(** The server's messages of the example exchange, as they are and with an extension. *)
Example C85_server_first_example :
  let nonce := firstn 48 (skipn 2 ex_b2) in
  is_server_first ex_b2 nonce (lit "salt") 4096 [] /\
  is_server_first (ex_b2 ++ lit ",x=1") nonce (lit "salt") 4096 [lit "x=1"] /\
  res_of (step ex_cl ex_bs1 (Some ex_b2) []) = Ok Running /\
  res_of (step ex_cl ex_bs1 (Some (ex_b2 ++ lit ",x=1")) []) = Err (EMech (MScramParse (PeInvalidAttribute "x"%char))).
Proof.
  cbv zeta. assert (D : decimal (lit "4096") 4096).
  { split; [discriminate|]. split; [repeat constructor; discriminate|]. split; [reflexivity|discriminate]. }
  assert (N : nonce_text (firstn 48 (skipn 2 ex_b2))) by (apply ex_nonce; [discriminate|reflexivity]).
  split; [|split; [|split; vm_compute; reflexivity]].
  - exists (lit "4096"). split; [vm_compute; reflexivity|]. split; [exact N|]. split; [exact D|].
    split; [discriminate|constructor].
  - exists (lit "4096"). split; [vm_compute; reflexivity|]. split; [exact N|]. split; [exact D|].
    split; [discriminate|constructor; [apply ex_x1|constructor]].
Qed.
(** C34: the serialiser of client-first messages (scram/parser.rs, not used by the client)
    writes RFC text exactly for fields that have one; C85_client_first reads it back. *)
Theorem C34_client_first_written : forall f z user nonce,
  is_client_first (concat (client_first_slices (mk_cf f z user nonce))) f z user nonce [] <->
  legal_flag f /\ (forall x, z = Some x -> saslname x) /\ saslname user /\ nonce_text nonce.
Proof. exact client_first_written. Qed.
Print Assumptions C34_client_first_written.
Example C34_written_example :
  concat (client_first_slices (mk_cf (CbUsed (lit "tls-unique")) (Some (lit "admin")) (lit "user") (lit "abc"))) =
    lit "p=tls-unique,a=admin,n=user,r=abc" /\
  concat (client_first_slices (mk_cf CbSupportedNotUsed None (lit "user") (lit "abc"))) = lit "y,,n=user,r=abc".
Proof. split; vm_compute; reflexivity. Qed.

(** ** C85 *)

(** A server reads every client message of the grammar, whatever optional extensions it has. *)
Theorem C85_client_first : forall m f z user nonce exts,
  is_client_first m f z user nonce exts -> client_first_parse m = Ok (mk_cf f z user nonce).
Proof. exact reads_client_first. Qed.
Print Assumptions C85_client_first.
Theorem C85_client_final : forall m cb nonce proof exts,
  is_client_final m cb nonce proof exts ->
  client_final_parse m = Ok (mk_cl (rfc_encode cb) nonce (rfc_encode proof)).
Proof. exact reads_client_final. Qed.
Print Assumptions C85_client_final.

(** A mandatory extension ends the exchange on either side, before the application is asked. *)
Theorem C85_mandatory : forall e s m script,
  (exists a plus, s_mech s = XScramS a (Some (SsClientFirst plus)) /\ is_mandatory_client_first m) \/
  (exists a cb nonce user, client_waits s a cb nonce user /\ is_mandatory_server_first m) ->
  exists s', step e s (Some m) script = (Err (EMech (MScramParse PeUnknownMandatoryExtensions)), [], s') /\
    s_trace s' = s_trace s.
Proof. exact mandatory_refused. Qed.
Print Assumptions C85_mandatory.

(** A client does not read every server message of the grammar. *)
Theorem C85_reads_refuted :
  ~ (forall m nonce salt n exts, is_server_first m nonce salt n exts ->
       exists sf, server_first_parse m = Ok sf).
Proof.
  intros H. destruct C85_server_first_example as (_ & G & _). apply H in G. destruct G as [sf G].
  vm_compute in G. discriminate.
Qed.
Print Assumptions C85_reads_refuted.
(** Extensions that RFC 5802 has it ignore make it refuse the message, ... *)
Theorem C85_server_first_extended : forall e s a cb nonce user m nonce' salt n x exts script,
  client_waits s a cb nonce user -> is_server_first m nonce' salt n (x :: exts) ->
  exists b s', hd_error x = Some b /\
    step e s (Some m) script = (Err (EMech (MScramParse (PeInvalidAttribute b))), [], s') /\ s_trace s' = s_trace s.
Proof. exact first_extension_refused. Qed.
Print Assumptions C85_server_first_extended.
(** ... even a message with the signature it expects, ... *)
Theorem C85_verifier_extended : forall e s a signature ck sk salt n m signature' x exts script,
  client_expects s a signature ck sk salt n -> is_verifier m signature' (x :: exts) ->
  exists s', step e s (Some m) script = (Err (EMech (MScramProtocol PrBase64Decode)), [], s') /\ s_trace s' = s_trace s.
Proof. exact client_refuses_verifier. Qed.
Print Assumptions C85_verifier_extended.
(** ... and errors lose their meaning. *)
Theorem C85_error_extended : forall e s a signature ck sk salt n m v x exts script,
  client_expects s a signature ck sk salt n -> is_error m v (x :: exts) ->
  exists s', step e s (Some m) script = (Err (EMech (MScramServerError SeOtherError)), [], s').
Proof. exact client_misses_error. Qed.
Print Assumptions C85_error_extended.

(** What holds instead: a client reads the server messages that have no extensions. *)
Theorem C85_server_first_partial : forall m nonce salt n,
  is_server_first m nonce salt n [] ->
  exists iters, server_first_parse m = Ok (mk_sf nonce (rfc_encode salt) iters) /\ decimal iters n.
Proof. exact reads_server_first. Qed.
Print Assumptions C85_server_first_partial.
Theorem C85_verifier_partial : forall m signature,
  is_verifier m signature [] -> server_final_parse m = Ok (SfVerifier (rfc_encode signature)).
Proof. exact reads_verifier. Qed.
Print Assumptions C85_verifier_partial.
Theorem C85_error_partial : forall m v x,
  is_error m v [] -> error_value x v \/ (x = SeOtherError /\ forall y, ~ error_value y v) ->
  server_final_parse m = Ok (SfError x).
Proof. exact reads_error. Qed.
Print Assumptions C85_error_partial.

(** Nor are the messages of the grammar the only ones: a server answers a client that names no user,
    sends no nonce and goes on with anything. *)
Theorem C85_only_server_refuted :
  ~ (forall e s a plus m script out s',
       s_mech s = XScramS a (Some (SsClientFirst plus)) ->
       step e s (Some m) script = (Ok Running, out, s') ->
       exists f z user nonce exts, is_client_first m f z user nonce exts).
Proof.
  intros H. pose (m := lit "n,,n=,r=,").
  assert (E : exists out s', step ex_sv (ex_s false) (Some m) [] = (Ok Running, out, s'))
    by (eexists; eexists; vm_compute; reflexivity).
  destruct E as [out [s' E]]. destruct (H ex_sv (ex_s false) SHA1 false m [] out s' eq_refl E) as (f & z & user & nonce & exts & G).
  pose proof (reads_client_first _ _ _ _ _ _ G) as R. vm_compute in R. injection R as <- <- <- <-.
  destruct G as (_ & _ & _ & [[N _] _] & _). apply N. reflexivity.
Qed.
Print Assumptions C85_only_server_refuted.

(** A client answers a server that extends the nonce with bytes that are not even text. *)
Theorem C85_only_client_refuted :
  ~ (forall e s a cb nonce user m script out s',
       client_waits s a cb nonce user -> step e s (Some m) script = (Ok Running, out, s') ->
       exists nonce salt n, is_server_first m nonce salt n []).
Proof.
  intros H. pose (nonce := firstn 24 (skipn 2 ex_b2)).
  pose (m := lit "r=" ++ nonce ++ [chr 255] ++ lit ",s=,i=1").
  assert (W : client_waits ex_bs1 SHA1 (Base64.encode (lit "p=tls-exporter,a=admin,data")) nonce (lit "user"))
    by (vm_compute; reflexivity).
  assert (E : exists out s', step ex_cl ex_bs1 (Some m) [] = (Ok Running, out, s'))
    by (eexists; eexists; vm_compute; reflexivity).
  destruct E as [out [s' E]]. destruct (H _ _ _ _ _ _ _ _ _ _ W E) as (nonce' & salt & n & G).
  destruct (reads_server_first _ _ _ _ G) as [iters [R _]]. destruct G as (_ & _ & [_ L] & _).
  assert (K : exists r, nonce' = nonce ++ chr 255 :: r).
  { exists []. vm_compute in R. injection R as <- _ _. vm_compute. reflexivity. }
  destruct K as [r ->]. apply Forall_app in L. destruct L as [_ L]. inversion L as [|? ? [B _] _]; subst.
  vm_compute in B. destruct B as [_ B]. apply B. reflexivity.
Qed.
Print Assumptions C85_only_client_refuted.

(** What exactly is read. *)
Theorem C85_client_first_exact_partial : forall m f z user nonce,
  client_first_parse m = Ok (mk_cf f z user nonce) <-> exists two t, client_first_fields m f two z user nonce t.
Proof. exact client_first_exact. Qed.
Print Assumptions C85_client_first_exact_partial.
Theorem C85_server_first_exact_partial : forall m nonce salt iters,
  server_first_parse m = Ok (mk_sf nonce salt iters) <->
  m = server_first_text nonce salt iters /\
  free ","%char nonce /\ free ","%char salt /\ free ","%char iters.
Proof. exact server_first_parse_exact. Qed.
Print Assumptions C85_server_first_exact_partial.
Theorem C85_client_final_exact_partial : forall m cb nonce proof,
  client_final_parse m = Ok (mk_cl cb nonce proof) <->
  exists exts, m = final_bare cb nonce ++ extensions_text exts ++ lit ",p=" ++ proof /\
    free ","%char cb /\ free ","%char nonce /\ free ","%char proof /\ Forall extension exts.
Proof. exact client_final_parse_exact. Qed.
Print Assumptions C85_client_final_exact_partial.
Theorem C85_server_final_exact_partial : forall m x,
  server_final_parse m = Ok x <->
  (exists v, m = lit "v=" ++ v /\ x = SfVerifier v) \/
  (exists v y, m = lit "e=" ++ v /\ x = SfError y /\
     (error_value y v \/ (y = SeOtherError /\ forall u, ~ error_value u v))).
Proof. exact server_final_exact. Qed.
Print Assumptions C85_server_final_exact_partial.

(** ** Examples *)

Example C85_client_first_example :
  is_client_first (lit "y,a=ad=2Cmin,n=user,r=abc,x=1") CbSupportedNotUsed (Some (lit "ad=2Cmin")) (lit "user")
    (lit "abc") [lit "x=1"].
Proof.
  split; [reflexivity|]. split; [exact I|]. split.
  { intros x [= <-]. split; [apply ex_value; [discriminate|reflexivity..]|discriminate]. }
  split; [split; [apply ex_value; [discriminate|reflexivity..]|discriminate]|].
  split; [apply ex_nonce; [discriminate|reflexivity]|]. constructor; [apply ex_x1|constructor].
Qed.
Example C85_client_final_example :
  is_client_final (lit "c=biws,r=abc,x=1,p=AA==") (lit "n,,") (lit "abc") [chr 0] [lit "x=1"].
Proof.
  split; [vm_compute; reflexivity|]. split; [apply ex_nonce; [discriminate|reflexivity]|].
  constructor; [|constructor]. split; [apply ex_x1|]. split; discriminate.
Qed.
Example C85_mandatory_example :
  is_mandatory_client_first (lit "n,,m=foo,n=user,r=abc") /\
  res_of (step ex_sv (ex_s false) (Some (lit "n,,m=foo,n=user,r=abc")) []) =
    Err (EMech (MScramParse PeUnknownMandatoryExtensions)).
Proof.
  split; [|vm_compute; reflexivity].
  exists CbNotSupported, None, (lit "foo"), (lit "user"), (lit "abc"), [].
  split; [apply ex_value; [discriminate|reflexivity..]|]. split; [reflexivity|]. split; [exact I|].
  split; [discriminate|].
  split; [split; [apply ex_value; [discriminate|reflexivity..]|discriminate]|].
  split; [apply ex_nonce; [discriminate|reflexivity]|constructor].
Qed.
Example C85_mandatory_server_example :
  is_mandatory_server_first (lit "m=foo,r=abc,s=,i=1").
Proof.
  exists (lit "foo"), (lit "r=abc,s=,i=1"), (lit "abc"), [], 1%N, [].
  split; [apply ex_value; [discriminate|reflexivity..]|]. split; [reflexivity|].
  exists (lit "1"). split; [reflexivity|]. split; [apply ex_nonce; [discriminate|reflexivity]|].
  split; [|split; [discriminate|constructor]].
  split; [discriminate|]. split; [constructor; [split; discriminate|constructor]|]. split; [reflexivity|discriminate].
Qed.
Example C85_server_final_example :
  exists signature ck sk,
    client_expects ex_bs3 SHA1 signature ck sk (lit "salt") 4096 /\
    is_verifier ex_b4 signature [] /\ is_verifier (ex_b4 ++ lit ",x=1") signature [lit "x=1"] /\
    is_error (lit "e=unknown-user") (lit "unknown-user") [] /\
    is_error (lit "e=unknown-user,x=1") (lit "unknown-user") [lit "x=1"] /\
    res_of (step ex_cl ex_bs3 (Some ex_b4) []) = Ok (Finished false) /\
    res_of (step ex_cl ex_bs3 (Some (ex_b4 ++ lit ",x=1")) []) = Err (EMech (MScramProtocol PrBase64Decode)) /\
    res_of (step ex_cl ex_bs3 (Some (lit "e=unknown-user,x=1")) []) = Err (EMech (MScramServerError SeOtherError)).
Proof.
  eexists. eexists. eexists. split; [vm_compute; reflexivity|].
  assert (X : Forall attr_val [lit "x=1"]) by (constructor; [apply ex_x1|constructor]).
  assert (U : value_text (lit "unknown-user")) by (apply ex_value; [discriminate|reflexivity..]).
  split; [split; [vm_compute; reflexivity|constructor]|].
  split; [split; [vm_compute; reflexivity|exact X]|].
  split; [split; [reflexivity|split; [exact U|constructor]]|].
  split; [split; [reflexivity|split; [exact U|exact X]]|].
  repeat split; vm_compute; reflexivity.
Qed.
