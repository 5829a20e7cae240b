(** mechanisms/scram/tools.rs, client.rs and server.rs *)
From Verif Require Import Bytes Utf8 Base64 Num Types World OAuth ScramParser.
Open Scope m_scope.

(** scram/mechinfo.rs:9 NONCE_LEN. *)
Definition nonce_len : nat := 24.

(** scram/tools.rs:9-10 PRINTABLE. *)
Definition printable : bytes :=
  lit "!""#$%&'()*+-./0123456789:;<=>?@ABCDEFGHIJKLMNOPQRSTUVWXYZ[\]^_`abcdefghijklmnopqrstuvwxy".

(** rand 0.8 [Slice::sample]: an element at an arbitrary index within bounds. *)
Definition pick (n : N) : byte :=
  nth (N.to_nat (N.modulo n (N.of_nat (length printable)))) printable zero.

(** scram/tools.rs:12-15 generate_nonce. *)
Definition generate_nonce {L} (e : env) : M L bytes :=
  l <- draws e nonce_len ;; ret (map pick l).

(** [thread_rng().fill_bytes] on [n] bytes. *)
Definition random_bytes {L} (e : env) (n : nat) : M L bytes :=
  l <- draws e n ;; ret (map (fun x => ascii_of_N (N.modulo x 256)) l).

(** scram/tools.rs:42-58 (and again 60-78): the message fed into both HMACs. *)
Definition auth_message (username client_nonce server_nonce salt iters cb : bytes) : bytes :=
  lit "n=" ++ username ++ lit ",r=" ++ client_nonce ++ lit ",r=" ++ client_nonce
  ++ server_nonce ++ lit ",s=" ++ salt ++ lit ",i=" ++ iters ++ lit ",c=" ++ cb
  ++ lit ",r=" ++ client_nonce ++ server_nonce.

(** scram/tools.rs:28-79 compute_signatures. *)
Definition compute_signatures (e : env) (a : alg) (stored_key server_key : bytes)
    (username client_nonce server_nonce salt iters cb : bytes) : bytes * bytes :=
  let m := auth_message username client_nonce server_nonce salt iters cb in
  (e_hmac e a stored_key m, e_hmac e a server_key m).

(** scram/tools.rs:83-99 derive_keys. *)
Definition derive_keys (e : env) (a : alg) (salted : bytes) : bytes * bytes :=
  (e_hmac e a salted (lit "Client Key"), e_hmac e a salted (lit "Server Key")).

(** [DOutput::from_exact_iter(..).expect(..)]: panics if the length is not the output size. *)
Definition exact {L} (a : alg) (x : bytes) : M L bytes :=
  if Nat.eqb (length x) (hlen a) then ret x else panic.

(** * Client *)

(** scram/client.rs:33-37 CbSupport. *)
Inductive cbsupport := ClientNoSupport | ServerNoSupport | Supported.

(** scram/client.rs:239-251 WaitingServerFirst. *)
Record wait_sf := mk_wsf { ws_cb : bytes; ws_nonce : bytes; ws_username : bytes }.
(** scram/client.rs:391-398 WaitingServerFinal. *)
Record wait_sfin := mk_wsfin {
  wf_verifier : bytes; wf_client_key : bytes; wf_server_key : bytes;
  wf_salt : bytes; wf_iterations : N }.

(** scram/client.rs:62-66 ScramClientState. *)
Inductive scram_cst :=
| ScInitial (plus : cbsupport)
| ScClientFirst (s : wait_sf)
| ScServerFirst (s : wait_sfin).

(** Local variables of send_client_first: gs2_header and cbdata. *)
Definition cf_locals := (bytes * option bytes)%type.
Definition push_gs2 (x : bytes) : M cf_locals unit :=
  l <- getl ;; setl (fst l ++ x, snd l).
Definition set_cbdata (d : bytes) : M cf_locals unit :=
  l <- getl ;; setl (fst l, Some d).

Definition esc {L} (x : bytes) : M L bytes :=
  of_res (rmap_err (fun e => EMech (MSaslName e)) (escape x)).

(** scram/client.rs:168-199: the GS2 flag. *)
Definition client_cbflag (e : env) (plus : cbsupport) : M cf_locals unit :=
  match plus with
  | Supported =>
      push_gs2 (lit "p=") ;;;
      cbtype <- maybe_need_with e POverrideCBType empty_provider (fun cbname : bytes =>
        push_gs2 cbname ;;; ret cbname) ;;
      match cbtype with
      | Some cbname =>
          need_cb_data e cbname empty_provider (fun d => set_cbdata d)
      | None =>
          exporter <- maybe_need_cb_data e (lit "tls-exporter") empty_provider (fun d =>
            push_gs2 (lit "tls-exporter") ;;; set_cbdata d) ;;
          match exporter with
          | Some _ => ret tt
          | None =>
              need_cb_data e (lit "tls-unique") empty_provider (fun d =>
                push_gs2 (lit "tls-unique") ;;; set_cbdata d)
          end
      end
  | ServerNoSupport => push_gs2 (lit "y")
  | ClientNoSupport => push_gs2 (lit "n")
  end.

(** scram/client.rs:154-236 send_client_first. *)
Definition send_client_first (e : env) (plus : cbsupport) : M cf_locals wait_sf :=
  client_cbflag e plus ;;;
  push_gs2 (lit ",") ;;;
  maybe_need_with e PAuthzId empty_provider (fun authzid : bytes =>
    push_gs2 (lit "a=") ;;;
    escaped <- esc authzid ;;
    push_gs2 escaped) ;;;
  push_gs2 (lit ",") ;;;
  username <- need_with e PAuthId empty_provider (fun authid : bytes => esc authid) ;;
  client_nonce <- generate_nonce e ;;
  l <- getl ;;
  write_all_vectored [fst l; lit "n="; username; lit ",r="; client_nonce] ;;;
  let cb := match snd l with Some d => fst l ++ d | None => fst l end in
  ret (mk_wsf (encode cb) client_nonce username).

(** scram/client.rs:529-539 ScramClientProvider. *)
Definition scram_client_provider (salt : bytes) (iterations : N) : ctx :=
  [mk_entry PSalt salt; mk_entry PIterations iterations].

Definition scram_proto {L A} (p : proterr) : M L A := fail (EMech (MScramProtocol p)).
Definition scram_parse {L A} (r : res parseerr A) : M L A :=
  of_res (rmap_err (fun e => EMech (MScramParse e)) r).

(** scram/client.rs:303-346: cached keys, else salted password, else password. *)
Definition client_keys {L} (e : env) (a : alg) (salt : bytes) (iterations : N)
  : M L (bytes * bytes) :=
  let prov := scram_client_provider salt iterations in
  k1 <- maybe_need_with e PScramCachedPassword prov (fun c : cached =>
    if Nat.eqb (length (ca_client_key c)) (hlen a)
       && Nat.eqb (length (ca_server_key c)) (hlen a)
    then ret (ca_client_key c, ca_server_key c) else panic) ;;
  match k1 with
  | Some k => ret k
  | None =>
      k2 <- maybe_need_with e PSaltedPassword prov (fun p : bytes =>
        match p with
        | [] => fail ECbNoValue
        | _ => ret (derive_keys e a p)
        end) ;;
      match k2 with
      | Some k => ret k
      | None =>
          need_with e PPassword prov (fun p : bytes =>
            ret (derive_keys e a (e_pbkdf2 e a p salt iterations)))
      end
  end.

(** scram/client.rs:265-388 handle_server_first. *)
Definition handle_server_first {L} (e : env) (a : alg) (s : wait_sf) (input : bytes)
  : M L wait_sfin :=
  sf <- scram_parse (server_first_parse input) ;;
  match strip_prefix (ws_nonce s) (sf_nonce sf) with
  | None => scram_proto PrInvalidNonce
  | Some [] => scram_proto PrInvalidNonce
  | Some server_nonce =>
      match from_utf8 (sf_iterations sf) with
      | None => fail (EMech (MScramParse PeBadUtf8))
      | Some it =>
          match parse_u32 it with
          | None => scram_proto PrIterationCountFormat
          | Some iterations =>
              if N.eqb iterations 0 then scram_proto PrIterationCountZero
              else
                match decode (sf_salt sf) with
                | None => scram_proto PrBase64Decode
                | Some salt =>
                    keys <- client_keys e a salt iterations ;;
                    let client_key := fst keys in
                    let server_key := snd keys in
                    let stored_key := e_hash e a client_key in
                    let sigs := compute_signatures e a stored_key server_key
                                  (ws_username s) (ws_nonce s) server_nonce (sf_salt sf)
                                  (sf_iterations sf) (ws_cb s) in
                    proof <- exact a (xor_zip client_key (fst sigs)) ;;
                    write_all_vectored
                      (client_final_slices (mk_cl (ws_cb s) (sf_nonce sf) (encode proof))) ;;;
                    ret (mk_wsfin (snd sigs) client_key server_key salt iterations)
                end
          end
      end
  end.

(** [let _unused = session.action(..)]: the result, including errors, is ignored. *)
Definition ignore {L A} (m : M L A) : M L unit :=
  fun l w => match m l w with
             | (Panic, l', w') => (Panic, l', w')
             | (_, l', w') => (Ok tt, l', w')
             end.

(** scram/client.rs:417-449 handle_server_final. *)
Definition handle_server_final {L} (e : env) (s : wait_sfin) (input : bytes) : M L unit :=
  sf <- scram_parse (server_final_parse input) ;;
  match sf with
  | SfVerifier v64 =>
      match decode v64 with
      | None => scram_proto PrBase64Decode
      | Some v =>
          if bytes_eqb (wf_verifier s) v then
            ignore (action e PScramCachedPassword
                      (scram_client_provider (wf_salt s) (wf_iterations s))
                      (mk_cached (wf_client_key s) (wf_server_key s)))
          else fail EMutualAuthenticationFailed
      end
  | SfError x => fail (EMech (MScramServerError x))
  end.

(** scram/client.rs:458-490 step. *)
Definition scram_client_step (e : env) (a : alg) (input : option bytes)
  : M (option scram_cst) state :=
  st <- getl ;;
  setl None ;;;
  match st with
  | Some (ScInitial plus) =>
      '(s, _) <- locally ([], None) (send_client_first e plus) ;;
      setl (Some (ScClientFirst s)) ;;;
      ret Running
  | Some (ScClientFirst s) =>
      match input with
      | None => fail EInputDataRequired
      | Some server_first =>
          s' <- handle_server_first e a s server_first ;;
          setl (Some (ScServerFirst s')) ;;;
          ret Running
      end
  | Some (ScServerFirst s) =>
      match input with
      | None => fail EInputDataRequired
      | Some server_final =>
          handle_server_final e s server_final ;;;
          ret (Finished false)
      end
  | None => panic
  end.

(** * Server *)

(** scram/server.rs:93-106 Prov: authzid only if present. *)
Definition scram_server_provider (authid : bytes) (authzid : option bytes) : ctx :=
  mk_entry PAuthId authid ::
  match authzid with
  | Some z => [mk_entry PAuthzId z]
  | None => []
  end.

(** scram/server.rs:235-245 FinalInner. *)
Record final_inner := mk_fi {
  fi_client_nonce : bytes; fi_server_nonce : bytes; fi_gs2_header : bytes;
  fi_username : bytes; fi_authzid : option bytes; fi_salt : bytes; fi_iterations : bytes;
  fi_stored_key : bytes; fi_server_key : bytes }.

(** scram/server.rs:420-424 ScramServerState; the data of WaitingClientFinal is None for an
    unknown user. [plus] is CBSupport::Yes. *)
Inductive scram_sst :=
| SsClientFirst (plus : bool)
| SsClientFinal (data : option final_inner)
| SsFinished.

(** scram/server.rs:38-39. *)
Definition default_iterations : bytes := lit "16384".
Definition default_salt_len : nat := 32.

(** scram/server.rs:121-229 handle_client_first; the local variable is gs2_header. *)
Definition handle_client_first (e : env) (a : alg) (plus : bool) (input : bytes)
  : M bytes (option final_inner) :=
  cf <- scram_parse (client_first_parse input) ;;
  setl (build_gs2_header cf) ;;;
  let provider := scram_server_provider (cf_username cf) (cf_authzid cf) in
  match cf_cbflag cf with
  | CbSupportedNotUsed =>
      if plus then fail (EMech MScramChannelBindingsNotUsed) else ret tt
  | CbNotSupported => ret tt
  | CbUsed name =>
      need_cb_data e name provider (fun cbdata =>
        h <- getl ;; setl (h ++ cbdata))
  end ;;;
  params <- maybe_need_with e PScramStoredPassword provider (fun s : stored =>
    if Nat.eqb (length (st_stored_key s)) (hlen a)
       && Nat.eqb (length (st_server_key s)) (hlen a)
    then ret (fmt_u32 (st_iterations s), encode (st_salt s), st_stored_key s,
              st_server_key s)
    else fail (EMech MScramPasswordHashInvalid)) ;;
  server_nonce <- generate_nonce e ;;
  match params with
  | Some (iterations, salt, stored_key, server_key) =>
      write_all_vectored (server_first_slices (cf_nonce cf) server_nonce salt iterations) ;;;
      gs2_header <- getl ;;
      ret (Some (mk_fi (cf_nonce cf) server_nonce gs2_header (cf_username cf)
                       (cf_authzid cf) salt iterations stored_key server_key))
  | None =>
      salt <- random_bytes e default_salt_len ;;
      write_all_vectored
        (server_first_slices (cf_nonce cf) server_nonce (encode salt) default_iterations) ;;;
      ret None
  end.

Definition send_final {L} (m : server_final) : M L unit :=
  write_all_vectored (server_final_slices m) ;;; ret tt.

(** scram/server.rs:280-378 handle_client_final. *)
Definition handle_client_final {L} (e : env) (a : alg) (data : option final_inner)
    (input : bytes) : M L unit :=
  cl <- scram_parse (client_final_parse input) ;;
  match data with
  | None => send_final (SfError SeUnknownUser)
  | Some d =>
      match decode (cl_cb cl) with
      | None => scram_proto PrBase64Decode
      | Some cb =>
          if negb (bytes_eqb (fi_gs2_header d) cb)
          then send_final (SfError SeChannelBindingsDontMatch)
          else
            match strip_prefix (fi_client_nonce d) (cl_nonce cl) with
            | None => send_final (SfError SeInvalidProof)
            | Some remainder =>
                if bytes_eqb remainder (fi_server_nonce d)
                   && Nat.leb (length (cl_proof cl)) (hlen a * 4 / 3 + 3)
                then
                  match decode_slice (cl_proof cl) (hlen a) with
                  | None => scram_proto PrBase64Decode
                  | Some proof =>
                      let sigs := compute_signatures e a (fi_stored_key d) (fi_server_key d)
                                    (fi_username d) (fi_client_nonce d) (fi_server_nonce d)
                                    (fi_salt d) (fi_iterations d) (cl_cb cl) in
                      client_key <- exact a (xor_zip proof (fst sigs)) ;;
                      if bytes_eqb (fi_stored_key d) (e_hash e a client_key) then
                        send_final (SfVerifier (encode (snd sigs))) ;;;
                        validate e (scram_server_provider (fi_username d) (fi_authzid d))
                      else send_final (SfError SeInvalidProof)
                  end
                else send_final (SfError SeInvalidProof)
            end
      end
  end.

(** scram/server.rs:426-455 step. *)
Definition scram_server_step (e : env) (a : alg) (input : option bytes)
  : M (option scram_sst) state :=
  st <- getl ;;
  setl None ;;;
  match st with
  | Some (SsClientFirst plus) =>
      match input with
      | None => fail EInputDataRequired
      | Some client_first =>
          '(d, _) <- locally [] (handle_client_first e a plus client_first) ;;
          setl (Some (SsClientFinal d)) ;;;
          ret Running
      end
  | Some (SsClientFinal d) =>
      match input with
      | None => fail EInputDataRequired
      | Some client_final =>
          handle_client_final e a d client_final ;;;
          setl (Some SsFinished) ;;;
          ret (Finished true)
      end
  | Some SsFinished => fail EMechanismDone
  | None => panic
  end.
