(** mechanisms/gssapi *)
From Verif Require Import Bytes Types World.
Open Scope m_scope.

(** gssapi/properties.rs:40-48: the three flags of SecurityLayer. *)
Definition has_none (l : seclayer) : bool := let (b, _, _, _, _, _, _, _) := l in b.
Definition has_integ (l : seclayer) : bool := let (_, b, _, _, _, _, _, _) := l in b.
Definition has_conf (l : seclayer) : bool := let (_, _, b, _, _, _, _, _) := l in b.

(** bitflags [from_bits]: None if unknown bits are set. *)
Definition from_bits (b : byte) : option seclayer :=
  let (_, _, _, b3, b4, b5, b6, b7) := b in
  if b3 || b4 || b5 || b6 || b7 then None else Some b.

(** bitflags [is_empty], [&], [intersects], [set(flag, false)]. *)
Definition sl_is_empty (l : seclayer) : bool := beq l zero.
Definition sl_and (a b : seclayer) : seclayer :=
  let (a0, a1, a2, a3, a4, a5, a6, a7) := a in
  let (b0, b1, b2, b3, b4, b5, b6, b7) := b in
  Ascii (a0 && b0) (a1 && b1) (a2 && b2) (a3 && b3)
        (a4 && b4) (a5 && b5) (a6 && b6) (a7 && b7).
Definition sl_intersects (a b : seclayer) : bool := negb (sl_is_empty (sl_and a b)).
Definition clear_conf (l : seclayer) : seclayer :=
  let (b0, b1, _, b3, b4, b5, b6, b7) := l in Ascii b0 b1 false b3 b4 b5 b6 b7.
Definition clear_integ (l : seclayer) : seclayer :=
  let (b0, _, b2, b3, b4, b5, b6, b7) := l in Ascii b0 false b2 b3 b4 b5 b6 b7.

(** gssapi/properties.rs:50-54 Default: all(). *)
Definition sl_default : seclayer := chr 7.

Definition ff : byte := chr 255.
Definition gss_err {L A} : M L A := fail (EMech MGss).

(** [.map_err(Error::Gss)?] on the result of a library call. *)
Definition gss_try {L A} (o : option A) : M L A :=
  match o with Some a => ret a | None => gss_err end.

Definition unwrap_layer (o : option seclayer) : seclayer :=
  match o with Some l => l | None => sl_default end.

(** * Client *)

(** gssapi/client.rs:19-25 GssapiState. *)
Inductive gss_cst :=
| GcInitial
| GcPending (c : gctx)
| GcLast (c : gctx) (acceptable : seclayer)
| GcCompleted (layer : option (gctx * bool))
| GcErrored.

(** gssapi/client.rs:92-118: the closure checking the layers acceptable to the user. *)
Definition gss_check_acceptable {L} (e : env) (c : gctx) (acceptable : seclayer)
  : M L seclayer :=
  flags <- gss_try (e_gss_flags e c) ;;
  if sl_is_empty acceptable || has_none acceptable then ret acceptable
  else if has_integ acceptable && gf_integ flags then ret acceptable
  else if gf_integ flags && gf_mutual flags && gf_conf flags then ret acceptable
  else fail (EMech MGssBadContext).

(** gssapi/client.rs:79-123: the Pending branch. *)
Definition gss_client_pending (e : env) (c : gctx) (input : option bytes)
  : M gss_cst state :=
  token <- gss_try (e_gss_step e c input) ;;
  let c := c ++ [GStep input] in
  match token with
  | Some ((_ :: _) as t) => write_all t
  | _ => ret tt
  end ;;;
  if negb (e_gss_complete e c) then setl (GcPending c) ;;; ret Running
  else
    acceptable <- maybe_need_with e PGssSecurityLayer empty_provider
                    (gss_check_acceptable e c) ;;
    setl (GcLast c (unwrap_layer acceptable)) ;;;
    ret Running.

(** gssapi/client.rs:140-161: the response and the layer to install. *)
Definition gss_choose (shared : seclayer) : option (bytes * option bool) :=
  if has_conf shared then Some ([chr 4; ff; ff; ff], Some true)
  else if has_integ shared then Some ([chr 2; ff; ff; ff], Some false)
  else if has_none shared then Some ([chr 1; zero; zero; zero], None)
  else None.

(** gssapi/client.rs:46-169 step. *)
Definition gss_client_step (e : env) (input : option bytes) : M gss_cst state :=
  st <- getl ;;
  setl GcErrored ;;;
  match st with
  | GcInitial =>
      targ_name <- need_with e PGssService empty_provider (fun service : bytes =>
        ret service) ;;
      '(_, targ_name) <- locally (targ_name ++ lit "@")
        (need_with e PHostname empty_provider (fun hostname : bytes =>
           t <- getl ;; setl (t ++ hostname))) ;;
      (if e_gss_name e targ_name && e_gss_cred e then ret tt else gss_err) ;;;
      gss_client_pending e [GInit targ_name] input
  | GcPending c => gss_client_pending e c input
  | GcLast c acceptable =>
      match input with
      | None => fail EInputDataRequired
      | Some input =>
          unwrapped <- gss_try (e_gss_unwrap e c input) ;;
          let c := c ++ [GUnwrap input] in
          match unwrapped with
          | [b0; _; _; _] =>
              match from_bits b0 with
              | None => fail (EMech MGssBadFinalToken)
              | Some supported_sec =>
                  match gss_choose (sl_and supported_sec acceptable) with
                  | None => fail (EMech MGssBadContext)
                  | Some (response, wrap) =>
                      wrapped <- gss_try (e_gss_wrap e c false response) ;;
                      let c := c ++ [GWrap false response] in
                      write_all wrapped ;;;
                      setl (GcCompleted (match wrap with
                                         | Some b => Some (c, b)
                                         | None => None
                                         end)) ;;;
                      ret (Finished true)
                  end
              end
          | _ => fail (EMech MGssBadFinalToken)
          end
      end
  | GcCompleted _ | GcErrored => fail EMechanismDone
  end.

(** gssapi/client.rs:171-180 encode: the number of input bytes protected. *)
Definition gss_wrap_data {L} (e : env) (c : gctx) (conf : bool) (input : bytes) : M L nat :=
  wrapped <- gss_try (e_gss_wrap e c conf input) ;;
  write_all wrapped ;;;
  ret (length input).

(** gssapi/client.rs:182-191 decode. *)
Definition gss_unwrap_data {L} (e : env) (c : gctx) (input : bytes) : M L nat :=
  unwrapped <- gss_try (e_gss_unwrap e c input) ;;
  write_all unwrapped ;;;
  ret (length input).

Definition gss_client_encode (e : env) (input : bytes) : M gss_cst nat :=
  st <- getl ;;
  match st with
  | GcCompleted (Some (c, conf)) =>
      setl (GcCompleted (Some (c ++ [GWrap conf input], conf))) ;;;
      gss_wrap_data e c conf input
  | _ => fail ENoSecurityLayer
  end.

Definition gss_client_decode (e : env) (input : bytes) : M gss_cst nat :=
  st <- getl ;;
  match st with
  | GcCompleted (Some (c, conf)) =>
      setl (GcCompleted (Some (c ++ [GUnwrap input], conf))) ;;;
      gss_unwrap_data e c input
  | _ => fail ENoSecurityLayer
  end.

(** gssapi/client.rs:193-195. *)
Definition gss_client_layer (st : gss_cst) : bool :=
  match st with GcCompleted (Some _) => true | _ => false end.

(** * Server *)

(** gssapi/server.rs:19-26 GssapiState. *)
Inductive gss_sst :=
| GsInitial
| GsPending (c : gctx)
| GsInstalled (c : gctx) (supported : seclayer)
| GsFinal (c : gctx) (supported : seclayer)
| GsDone (layer : option (gctx * bool))
| GsErrored.

(** gssapi/server.rs:102-117: the Installed branch. *)
Definition gss_server_installed (e : env) (c : gctx) (supported : seclayer)
  : M gss_sst state :=
  let out_bytes := if has_conf supported || has_integ supported
                   then [supported; ff; ff; ff] else [supported; zero; zero; zero] in
  wrapped <- gss_try (e_gss_wrap e c false out_bytes) ;;
  write_all wrapped ;;;
  setl (GsFinal (c ++ [GWrap false out_bytes]) supported) ;;;
  ret Running.

(** gssapi/server.rs:76-84: layers the context cannot provide are removed. *)
Definition gss_mask (flags : gflags) (acceptable : seclayer) : seclayer :=
  let a := if gf_mutual flags && gf_conf flags then acceptable else clear_conf acceptable in
  if gf_integ flags then a else clear_integ a.

(** gssapi/server.rs:66-101: the Pending branch. The recursive call at line 99 finds either
    the Installed state just stored, or - if the context is not complete - the Errored
    placeholder left by [mem::replace]. *)
Definition gss_server_pending (e : env) (c : gctx) (input : option bytes)
  : M gss_sst state :=
  match input with
  | None => fail EInputDataRequired
  | Some input =>
      token <- gss_try (e_gss_step e c (Some input)) ;;
      let c := c ++ [GStep (Some input)] in
      if e_gss_complete e c then
        acceptable <- maybe_need_with e PGssSecurityLayer empty_provider
                        (fun a : seclayer => ret a) ;;
        flags <- gss_try (e_gss_flags e c) ;;
        let acceptable := gss_mask flags (unwrap_layer acceptable) in
        if sl_is_empty acceptable then fail (EMech MGssBadContext)
        else
          setl (GsInstalled c acceptable) ;;;
          match token with
          | Some token => write_all token ;;; ret Running
          | None => setl GsErrored ;;; gss_server_installed e c acceptable
          end
      else
        match token with
        | Some token => write_all token ;;; ret Running
        | None => fail EMechanismDone
        end
  end.

(** gssapi/server.rs:50-147 step. *)
Definition gss_server_step (e : env) (input : option bytes) : M gss_sst state :=
  st <- getl ;;
  setl GsErrored ;;;
  match st with
  | GsInitial =>
      if e_gss_cred e then gss_server_pending e [GAccept] input else gss_err
  | GsPending c => gss_server_pending e c input
  | GsInstalled c supported => gss_server_installed e c supported
  | GsFinal c supported =>
      match input with
      | None => fail EInputDataRequired
      | Some input =>
          unwrapped <- gss_try (e_gss_unwrap e c input) ;;
          let c := c ++ [GUnwrap input] in
          match unwrapped with
          | [b0; _; _; _] =>
              match from_bits b0 with
              | None => fail (EMech MGssBadFinalToken)
              | Some selected =>
                  if negb (sl_intersects selected supported)
                  then fail (EMech MGssBadFinalToken)
                  else
                    setl (GsDone (if has_conf selected then Some (c, true)
                                  else if has_integ selected then Some (c, false)
                                  else None)) ;;;
                    ret (Finished false)
              end
          | _ => fail (EMech MGssBadFinalToken)
          end
      end
  | GsDone _ | GsErrored => fail EMechanismDone
  end.

(** gssapi/server.rs:149-152. *)
Definition gss_server_layer (st : gss_sst) : bool :=
  match st with GsDone (Some _) => true | _ => false end.

(** gssapi/server.rs:154-163 encode. *)
Definition gss_server_encode (e : env) (input : bytes) : M gss_sst nat :=
  st <- getl ;;
  match st with
  | GsDone (Some (c, conf)) =>
      setl (GsDone (Some (c ++ [GWrap conf input], conf))) ;;;
      gss_wrap_data e c conf input
  | _ => fail ENoSecurityLayer
  end.

(** gssapi/server.rs:165-174 decode. *)
Definition gss_server_decode (e : env) (input : bytes) : M gss_sst nat :=
  st <- getl ;;
  match st with
  | GsDone (Some (c, conf)) =>
      setl (GsDone (Some (c ++ [GUnwrap input], conf))) ;;;
      gss_unwrap_data e c input
  | _ => fail ENoSecurityLayer
  end.
