(** C74, C76: whitespace in the lines of the interop programs, and passwords that are no text. *)
From Coq Require Import List NArith.
From Verif Require Import Spec_Basic Mechname Proof_Basic Bytes Utf8 Base64 Types World CallbackSpec Session Registry Apps Interop Spec_Wire Spec_Simple
  Spec_Session Spec_Interop Spec_Show ExampleEnv ExampleScram Proof_Show.
Import ListNotations.

(** C74: the words of a text are what stands between its whitespace, whatever the characters. *)
Theorem C74_split : forall cps ws, parted cps ws -> words (text cps) = map text ws.
Proof. exact words_text. Qed.
Print Assumptions C74_split.

(** C74: a password is shown as it is if it is text, and otherwise as the list of the numbers of
    its bytes. *)
Theorem C74_binary : forall e vars i d v s' x,
  fresh e (interop_server_app vars) SServer i d = Some v ->
  calls (cn_env v) (cn_session v) s' -> s_val s' = Some x ->
  In (d_name d) [lit "PLAIN"; lit "LOGIN"] ->
  exists evs c u p, new_events (cn_session v) s' evs /\ In c (validations evs) /\
    get_ref c PAuthId = Some u /\ get_ref c PPassword = Some p /\
    (utf8_text p /\ lit "OK " ++ x = valid_line u (get_ref c PAuthzId) (Some p) \/
     ~ utf8_text p /\ exists t, numbers p t /\
       lit "OK " ++ x = valid_line u (get_ref c PAuthzId) (Some (lit "[" ++ t ++ lit "]"))).
Proof. exact interop_binary. Qed.
Print Assumptions C74_binary.

(** C74: the server takes the channel binding and its name from one variable each, and nothing else
    from variables. *)
Theorem C74_variables : forall e sd vcb vars,
  let e' := with_app e sd (interop_server_cb vars) vcb in
  answers_with e' POverrideCBType (vars (lit "RSASL_CBNAME")) /\
  answers_with e' PChannelBindings (vars (lit "RSASL_CBDATA")) /\
  forall q, ~ In q [POverrideCBType; PChannelBindings; PScramStoredPassword] -> withholds e' q.
Proof. exact server_variables. Qed.
Print Assumptions C74_variables.

(** C74: the words of the first line the server writes are the names of the mechanisms it has a server
    for, in the order of registration. *)
Theorem C74_offers : forall e a show,
  Forall (fun m => d_name m <> [] /\ Forall name_byte (d_name m)) (ap_registry a) ->
  exists line, handle_client e a show SvMechs = AWrite line SvSelect /\
    words line = map d_name (filter d_has_server (ap_registry a)).
Proof. exact server_offers. Qed.
Print Assumptions C74_offers.

(** C76: the client program answers every request from the variable of that property, or not at
    all. *)
Theorem C76_variables : forall e sd vcb vars,
  let e' := with_app e sd (interop_client_cb vars) vcb in
  answers_with e' PAuthId (vars (lit "RSASL_AUTHID")) /\
  answers_with e' PPassword (vars (lit "RSASL_PASSWORD")) /\
  answers_with e' PAuthzId (vars (lit "RSASL_AUTHZID")) /\
  answers_with e' POverrideCBType (vars (lit "RSASL_CBNAME")) /\
  answers_with e' PChannelBindings (vars (lit "RSASL_CBDATA")) /\
  answers_with e' PGssService (vars (lit "RSASL_SERVICE")) /\
  answers_with e' PHostname (vars (lit "RSASL_HOST")) /\
  forall q, ~ In q [PAuthId; PPassword; PAuthzId; POverrideCBType; PChannelBindings; PGssService;
                    PHostname] -> withholds e' q.
Proof. exact client_variables. Qed.
Print Assumptions C76_variables.

(** C76: the client program drops whitespace at both ends of a line and nothing else... *)
Theorem C76_trimmed : forall a cps b, Forall blank a -> Forall blank b -> Forall scalar cps ->
  (forall n r, cps = n :: r -> ~ blank n) -> (forall r n, cps = r ++ [n] -> ~ blank n) ->
  trim (text (a ++ cps ++ b)) = text cps.
Proof. exact trim_text. Qed.
Print Assumptions C76_trimmed.
(** C76: ... so that it treats a line as it would treat the line without. *)
Theorem C76_blanks : forall c a cps b, Forall blank a -> Forall blank b -> Forall scalar cps ->
  cl_step c (Some (text (a ++ cps ++ b))) = cl_step c (Some (text cps)).
Proof. exact client_trims. Qed.
Print Assumptions C76_blanks.

(** No-break space, ideographic space and line separator are whitespace; zero width space is not. *)
Example C74_split_example : parted [160; 80; 8203; 233; 12288; 8232; 88]%N [[80; 8203; 233]; [88]]%N.
Proof.
  assert (I : forall n, (n < 55296)%N -> ~ blank n -> inked n) by (intros n H B; split; [now left|exact B]).
  assert (B : forall n, (n = 160 \/ n = 12288 \/ n = 8232)%N -> blank n).
  { intros n [->|[->| ->]]; unfold blank; tauto. }
  apply parted_blank; [apply B; tauto|].
  apply (parted_word [80; 8203; 233]%N [12288; 8232; 88]%N); [discriminate| | |].
  - repeat constructor; try apply I; try reflexivity; unfold blank; intros K;
      repeat (destruct K as [K|K]); revert K; vm_compute; intuition congruence.
  - right. do 2 eexists. split; [reflexivity|]. apply B. tauto.
  - do 2 (apply parted_blank; [apply B; tauto|]). apply (parted_word [88]%N []); [discriminate| |now left|constructor].
    repeat constructor; try apply I; try reflexivity; unfold blank; intros K;
      repeat (destruct K as [K|K]); revert K; vm_compute; intuition congruence.
Qed.
(** A password that is no text, over LOGIN. *)
Definition show_run (password : bytes) : option bytes :=
  match d_server builtin_registry DLogin with
  | Some iv =>
      match fresh ex_empty (interop_server_app (fun _ => None)) SServer iv DLogin with
      | Some v =>
          let '(_, _, v1) := step (cn_env v) (cn_session v) None [] in
          let '(_, _, v2) := step (cn_env v) v1 (Some (lit "user")) [] in
          let '(_, _, v3) := step (cn_env v) v2 (Some password) [] in s_val v3
      | None => None
      end
  | None => None
  end.
Example C74_binary_example :
  show_run [chr 255; "A"%char; chr 0] = Some (lit "VALID authid=user password=[255, 65, 0]").
Proof. vm_compute. reflexivity. Qed.
(** Two passwords may be shown alike. *)
Example C74_binary_alike : show_run [chr 255] = show_run (lit "[255]").
Proof. vm_compute. reflexivity. Qed.
(** A line with a no-break space in front and a carriage return at the end. *)
Example C76_blanks_example :
  text ([160] ++ [79; 75] ++ [13])%N = [chr 194; chr 160] ++ lit "OK" ++ [chr 13] /\
  trim ([chr 194; chr 160] ++ lit "OK" ++ [chr 13]) = lit "OK" /\
  Forall blank [160]%N /\ Forall blank [13]%N /\ Forall scalar [79; 75]%N.
Proof.
  split; [reflexivity|]. split; [reflexivity|].
  split; [constructor; [unfold blank; tauto|constructor]|].
  split; [constructor; [left; split; discriminate|constructor]|].
  repeat constructor.
Qed.
(** Both programs with the variables of the channel binding set. *)
Example C76_variables_example :
  let vars k := if bytes_eqb k (lit "RSASL_CBDATA") then Some (lit "data") else None in
  let e1 := with_app ex_empty (mk_sdata (lit "SCRAM-SHA-256-PLUS") SClient) (interop_client_cb vars)
              (fun _ _ _ => VRet None) in
  let e2 := with_app ex_empty (mk_sdata (lit "SCRAM-SHA-256-PLUS") SServer) (interop_server_cb vars)
              (fun _ _ _ => VRet None) in
  provides e1 PChannelBindings (lit "data") /\ provides e2 PChannelBindings (lit "data") /\
  withholds e1 PHostname.
Proof.
  intros vars e1 e2.
  split; [exact (proj1 (proj2 (proj2 (proj2 (proj2 (C76_variables _ _ _ vars))))))|].
  split; [exact (proj1 (proj2 (C74_variables _ _ _ vars)))|].
  exact (proj1 (proj2 (proj2 (proj2 (proj2 (proj2 (proj2 (C76_variables _ _ _ vars)))))))).
Qed.
(** A mechanism with a client only is not offered. *)
Definition ex_half : application :=
  mk_app (fun _ _ _ _ => CRet None) (fun _ _ _ => VRet None)
    [DPlain; DCustom (mk_custom (lit "X-HALF") 0 true false SClient); DScram SHA1 true].
Example C74_offers_example :
  Forall (fun m => d_name m <> [] /\ Forall name_byte (d_name m)) (ap_registry ex_half) /\
  map d_name (filter d_has_server (ap_registry ex_half)) = [lit "PLAIN"; lit "SCRAM-SHA-1-PLUS"].
Proof.
  split; [|reflexivity].
  apply Forall_forall. intros m H. cbn [ap_registry ex_half In] in H. destruct H as [<-|[<-|[<-|[]]]];
    refine (proj2 (proj1 (proj1 (mechname_exact _) _) _)); vm_compute; reflexivity.
Qed.
