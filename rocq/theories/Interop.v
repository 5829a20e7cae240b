(** interop/src: the line-based programs that run one exchange over a connection.
    Simplifications: writes to the connection succeed and arrive; consecutive writes without an
    intervening decision are joined; what the programs print to standard output is left out,
    except in bin/client.rs, where it matters; errors of the programs are not told apart. *)
From Verif Require Import Bytes Utf8 Num Base64 Mechname Types World Session Registry Apps.

(** * Lines and words (std) *)

Definition newline : byte := chr 10.
Definition nl : bytes := [newline].

(** What [lines().next()] returns: the end, a line that is not UTF-8, or a line. *)
Inductive lineres := LEnd | LBad | LText (l : bytes).

(** std BufRead::lines strips the newline and a carriage return before it. *)
Definition drop_cr (l : bytes) : bytes :=
  match rev l with
  | c :: r => if beq c (chr 13) then rev r else l
  | [] => []
  end.
Definition line_of (l : bytes) : lineres := if utf8_valid l then LText l else LBad.

(** The text before the first newline and the text after it. *)
Fixpoint cut_line (b : bytes) : option (bytes * bytes) :=
  match b with
  | [] => None
  | c :: r => if beq c newline then Some ([], r)
              else match cut_line r with
                   | Some (l, rest) => Some (c :: l, rest)
                   | None => None
                   end
  end.

(** Reading a line from what has arrived; [closed]: nothing more will arrive. None: it has to
    wait. The text after the last newline counts as a line if it is not empty. *)
Definition take_line (closed : bool) (b : bytes) : option (lineres * bytes) :=
  match cut_line b with
  | Some (l, rest) => Some (line_of (drop_cr l), rest)
  | None =>
      if closed then
        match b with
        | [] => Some (LEnd, [])
        | _ => Some (line_of b, [])
        end
      else None
  end.

(** std char::is_whitespace (Unicode White_Space): length of the whitespace character that [b]
    starts with, or zero. In valid UTF-8 these sequences occur only as whole characters. *)
Definition ws_len (b : bytes) : nat :=
  match map N_of_ascii b with
  | (9 | 10 | 11 | 12 | 13 | 32)%N :: _ => 1
  | 194%N :: (133 | 160)%N :: _ => 2
  | 225%N :: 154%N :: 128%N :: _ => 3
  | 226%N :: 128%N :: (128 | 129 | 130 | 131 | 132 | 133 | 134 | 135 | 136 | 137 | 138
                       | 168 | 169 | 175)%N :: _ => 3
  | 226%N :: 129%N :: 159%N :: _ => 3
  | 227%N :: 128%N :: 128%N :: _ => 3
  | _ => 0
  end.
(** std str::split_whitespace: [cur] is the word being read, [skip] the number of bytes left of
    the current whitespace character. *)
Definition flush (cur : bytes) : list bytes := match cur with [] => [] | _ => [cur] end.
Fixpoint words_from (cur : bytes) (skip : nat) (b : bytes) : list bytes :=
  match b with
  | [] => flush cur
  | c :: r =>
      match skip with
      | S k => words_from cur k r
      | O => match ws_len b with
             | O => words_from (cur ++ [c]) 0 r
             | S k => flush cur ++ words_from [] k r
             end
      end
  end.
Definition words (b : bytes) : list bytes := words_from [] 0 b.
(** std str::trim. *)
Fixpoint all_ws (skip : nat) (b : bytes) : bool :=
  match b with
  | [] => true
  | _ :: r => match skip with
              | S k => all_ws k r
              | O => match ws_len b with O => false | S k => all_ws k r end
              end
  end.
Fixpoint trim_start (skip : nat) (b : bytes) : bytes :=
  match b with
  | [] => []
  | _ :: r => match skip with
              | S k => trim_start k r
              | O => match ws_len b with O => b | S k => trim_start k r end
              end
  end.
Fixpoint trim_end (b : bytes) : bytes :=
  if all_ws 0 b then [] else match b with [] => [] | c :: r => c :: trim_end r end.
Definition trim (b : bytes) : bytes := trim_end (trim_start 0 b).

(** * Programs *)

(** What a program in state [S] does next: write to the connection, wait for a line, or end. *)
Inductive act (S R : Type) := AWrite (b : bytes) (k : S) | ALine (k : lineres -> S) | AExit (r : R).
Arguments AWrite {S R}. Arguments ALine {S R}. Arguments AExit {S R}.

(** A session in progress. *)
Record conn := mk_conn { cn_env : env; cn_mech : mechanism; cn_session : session }.
Definition with_session (c : conn) (s : session) : conn := mk_conn (cn_env c) (cn_mech c) s.
Definition step_line (c : conn) (input : option bytes) : res serr state * bytes * conn :=
  match step64 (cn_env c) (cn_session c) input with
  | (r, out, s) => (r, out, with_session c s)
  end.

(** session.rs:463-478 State::is_running and has_sent_message. *)
Definition running (s : state) : bool := match s with Running => true | Finished _ => false end.
Definition sent_message (s : state) : bool :=
  match s with Running => true | Finished b => b end.

(** An application's callbacks; [with_app] with its validation tag, the rest as in [e]. *)
Record application := mk_app {
  ap_cb : list event -> sdata -> ctx -> reqkind -> cbprog;
  ap_vcb : list event -> sdata -> ctx -> vprog;
  ap_registry : list mechanism }.
Definition fresh (e : env) (a : application) (sd : side) (i : inst) (d : mechanism) : option conn :=
  match i with
  | Builtin m => Some (mk_conn (with_app e (mk_sdata (d_name d) sd) (ap_cb a) (ap_vcb a)) d
                               (mk_session m [] 0 None))
  | Foreign _ => None
  end.

(** ** tests/common/mod.rs *)

(** How [test_client] ends: it panics, or returns a line. *)
Inductive tc_result := TcPanicked | TcReturned (l : bytes).

Inductive tc :=
| TcMechs
| TcWrite (b : bytes) (k : tc)
| TcRead (c : conn)
| TcOutcome
| TcEnd (r : tc_result).

(** tests/common/mod.rs:52, 77: at the head of the loop. *)
Definition tc_loop (s : state) (c : conn) : tc := if running s then TcRead c else TcOutcome.

(** tests/common/mod.rs:38-50: after the name of the mechanism. *)
Definition tc_initial (c : conn) : tc :=
  if are_we_first SClient (cn_mech c) then
    match step_line c None with
    | (Ok s, buffer, c') =>
        if sent_message s then TcWrite (lit " " ++ buffer) (TcWrite nl (tc_loop s c'))
        else TcWrite nl (tc_loop s c')
    | _ => TcEnd TcPanicked
    end
  else TcWrite nl (tc_loop Running c).

(** tests/common/mod.rs:53-75: one round. [from_utf8(buf).unwrap()] never fails: Base64. *)
Definition tc_round (c : conn) (l : lineres) : tc :=
  match l with
  | LText line =>
      match step_line c (Some line) with
      | (Ok s, buffer, c') =>
          TcWrite (if sent_message s then buffer ++ nl else lit "-" ++ nl) (tc_loop s c')
      | _ => TcEnd TcPanicked
      end
  | _ => TcEnd TcPanicked
  end.

(** tests/common/mod.rs:17-29: the list of mechanisms; start of the session. *)
Definition tc_mechs (e : env) (a : application) (mechanism : bytes) (l : lineres) : tc :=
  match l with
  | LText line =>
      if existsb (fun m => bytes_eqb m mechanism) (words line) then
        match client_start (ap_registry a) false default_prefer [mechanism] with
        | Ok (i, d) =>
            match fresh e a SClient i d with
            | Some c => TcWrite mechanism (tc_initial c)
            | None => TcEnd TcPanicked
            end
        | _ => TcEnd TcPanicked
        end
      else TcEnd TcPanicked
  | _ => TcEnd TcPanicked
  end.

(** tests/common/mod.rs:7-80 test_client. *)
Definition test_client (e : env) (a : application) (mechanism : bytes) (t : tc) : act tc tc_result :=
  match t with
  | TcMechs => ALine (tc_mechs e a mechanism)
  | TcWrite b k => AWrite b k
  | TcRead c => ALine (tc_round c)
  | TcOutcome =>
      ALine (fun l => TcEnd (match l with LText line => TcReturned line | _ => TcPanicked end))
  | TcEnd r => AExit r
  end.

(** tests/plain.rs:8-9 and the others: SASLConfig::with_credentials(None, user, password). *)
Definition credentials_app (user password : bytes) : application :=
  mk_app (fun _ _ _ _ => credentials_cb None user password) (fun _ _ _ => VRet None)
         (credentials_registry false).

(** ** bin/server.rs *)

(** bin/server.rs:35-52: the stored password of user "username". *)
Definition interop_stored : stored :=
  mk_stored 4096
    (map chr [192; 61; 51; 253; 206; 93; 237; 46; 42; 235; 142; 188; 59; 61; 98; 178]%N)
    (map chr [87; 125; 145; 236; 250; 131; 103; 74; 247; 123; 68; 218; 121; 173; 12; 23; 43; 85;
              15; 252; 200; 80; 44; 176; 45; 246; 33; 245; 143; 247; 0; 109]%N)
    (map chr [196; 31; 224; 204; 165; 244; 68; 118; 6; 197; 163; 187; 35; 70; 137; 4; 185; 243; 25;
              19; 31; 49; 253; 198; 239; 25; 226; 58; 253; 195; 184; 185]%N).

(** The environment variables a program sees. *)
Definition variables := bytes -> option bytes.
(** [let x = var(key)?; request.satisfy::<p>(x)?; Ok(())]. *)
Definition from_var (vars : variables) (key : bytes) (k : bytes -> cbprog) : cbprog :=
  match vars key with
  | None => CRet (Some ECbNoValue)
  | Some x => k x
  end.

(** bin/server.rs:21-55 EnvCallback::callback. *)
Definition interop_server_cb (vars : variables) (_ : list event) (_ : sdata) (c : ctx) (_ : reqkind)
  : cbprog :=
  CIs POverrideCBType (fun b =>
    if b then from_var vars (lit "RSASL_CBNAME")
                (fun x : bytes => CSatisfy POverrideCBType x (fun r => CRet r))
    else CIs PChannelBindings (fun b =>
      if b then from_var vars (lit "RSASL_CBDATA")
                  (fun x : bytes => CSatisfy PChannelBindings x (fun r => CRet r))
      else CIs PScramStoredPassword (fun b =>
        if b then
          match get_ref c PAuthId with
          | Some user =>
              if bytes_eqb user (lit "username")
              then CSatisfy PScramStoredPassword interop_stored (fun r => CRet r)
              else CRet None
          | None => CRet None
          end
        else CRet None))).

(** bin/server.rs:104-125 Display for InteropValidation; [{:?}] of a Vec<u8> in the last case. *)
Fixpoint join (sep : bytes) (l : list bytes) : bytes :=
  match l with
  | [] => []
  | [x] => x
  | x :: r => x ++ sep ++ join sep r
  end.
Definition debug_bytes (b : bytes) : bytes :=
  lit "[" ++ join (lit ", ") (map (fun c => fmt_u32 (N_of_ascii c)) b) ++ lit "]".
Definition interop_validation (authid : bytes) (authzid password : option bytes) : bytes :=
  lit "VALID authid=" ++ authid
  ++ match authzid with Some z => lit " authzid=" ++ z | None => [] end
  ++ match password with
     | Some p => lit " password=" ++ if utf8_valid p then p else debug_bytes p
     | None => []
     end.

(** bin/server.rs:57-96 EnvCallback::validate. The only use of the value is its Display text,
    which stands for the value (simplification). *)
Definition interop_vcb (_ : list event) (sd : sdata) (c : ctx) : vprog :=
  if bytes_eqb (sd_mech sd) (lit "PLAIN") || bytes_eqb (sd_mech sd) (lit "LOGIN") then
    match get_ref c PAuthId, get_ref c PPassword with
    | Some authid, Some password =>
        VFinalize test_validation
          (interop_validation authid (get_ref c PAuthzId) (Some password)) (VRet None)
    | _, _ => VRet (Some VMissingRequiredProperty)
    end
  else
    match strip_prefix (lit "SCRAM-") (sd_mech sd) with
    | Some _ =>
        match get_ref c PAuthId with
        | Some authid =>
            VFinalize test_validation
              (interop_validation authid (get_ref c PAuthzId) None) (VRet None)
        | None => VRet (Some VMissingRequiredProperty)
        end
    | None => VRet None
    end.

(** bin/server.rs:260-276: the configuration. *)
Definition interop_server_app (vars : variables) : application :=
  mk_app (interop_server_cb vars) interop_vcb builtin_registry.

Inductive sv_result := SvOk | SvErr.
Inductive sv :=
| SvMechs
| SvSelect
| SvWrite (b : bytes) (k : sv)
| SvRead (c : conn)
| SvEnd (r : sv_result).

(** bin/server.rs:140-156: the first line. *)
Definition mechs_line (reg : list mechanism) : bytes :=
  flat_map (fun d => d_name d ++ lit " ") (get_available reg) ++ nl.

(** bin/server.rs:236-242: the outcome line. *)
Definition outcome_line (c : conn) : bytes :=
  match fst (validation (cn_session c)) with
  | Some v => lit "OK " ++ v ++ nl
  | None => lit "ERR NOTVALID" ++ nl
  end.

(** bin/server.rs:206-234: one round; the text of the error is left open. *)
Definition sv_step (show : serr -> bytes) (c : conn) (input : option bytes) : sv :=
  match step_line c input with
  | (Ok s, buffer, c') =>
      let k := if running s then SvRead c' else SvWrite (outcome_line c') (SvEnd SvOk) in
      if sent_message s then SvWrite (buffer ++ nl) k else k
  | (Err x, _, _) => SvWrite (lit "ERR " ++ show x ++ nl) (SvEnd SvErr)
  | (Panic, _, _) => SvEnd SvErr
  end.

(** bin/server.rs:158-204: the mechanism selected, and initial data. *)
Definition sv_select (e : env) (a : application) (show : serr -> bytes) (l : lineres) : sv :=
  match l with
  | LText line =>
      match words line with
      | name :: parts =>
          match mn_parse name with
          | Ok mechanism =>
              match server_start (ap_registry a) mechanism with
              | Ok (i, d) =>
                  match fresh e a SServer i d with
                  | Some c =>
                      if are_we_first SServer d then sv_step show c None
                      else match parts with
                           | data :: _ => sv_step show c (Some data)
                           | [] => SvWrite (lit "-" ++ nl) (SvRead c)
                           end
                  | None => SvEnd SvErr
                  end
              | _ => SvEnd SvErr
              end
          | _ => SvEnd SvErr
          end
      | [] => SvEnd SvErr
      end
  | _ => SvEnd SvErr
  end.

(** bin/server.rs:131-250 handle_client. *)
Definition handle_client (e : env) (a : application) (show : serr -> bytes) (t : sv) : act sv sv_result :=
  match t with
  | SvMechs => AWrite (mechs_line (ap_registry a)) SvSelect
  | SvSelect => ALine (sv_select e a show)
  | SvWrite b k => AWrite b k
  | SvRead c =>
      ALine (fun l => match l with LText line => sv_step show c (Some line) | _ => SvEnd SvErr end)
  | SvEnd r => AExit r
  end.

(** ** bin/client.rs *)

(** bin/client.rs:21-75 EnvCallback::callback. [unwrap] on the salt and the iteration count is
    left out: scram/client.rs:430-441 announces the action with both. *)
Definition interop_client_cb (vars : variables) (_ : list event) (_ : sdata) (_ : ctx) (_ : reqkind)
  : cbprog :=
  CIs PAuthId (fun b =>
    if b then from_var vars (lit "RSASL_AUTHID") (fun x : bytes => CSatisfy PAuthId x (fun r => CRet r))
    else CIs PPassword (fun b =>
      if b then from_var vars (lit "RSASL_PASSWORD")
                  (fun x : bytes => CSatisfy PPassword x (fun r => CRet r))
      else CIs PAuthzId (fun b =>
        if b then from_var vars (lit "RSASL_AUTHZID")
                    (fun x : bytes => CSatisfy PAuthzId x (fun r => CRet r))
        else CIs POverrideCBType (fun b =>
          if b then from_var vars (lit "RSASL_CBNAME")
                      (fun x : bytes => CSatisfy POverrideCBType x (fun r => CRet r))
          else CIs PChannelBindings (fun b =>
            if b then from_var vars (lit "RSASL_CBDATA")
                        (fun x : bytes => CSatisfy PChannelBindings x (fun r => CRet r))
            else CIs PScramCachedPassword (fun b =>
              if b then CGetAction PScramCachedPassword (fun _ => CRet None)
              else CIs PGssService (fun b =>
                if b then from_var vars (lit "RSASL_SERVICE")
                            (fun x : bytes => CSatisfy PGssService x (fun r => CRet r))
                else CIs PHostname (fun b =>
                  if b then from_var vars (lit "RSASL_HOST")
                              (fun x : bytes => CSatisfy PHostname x (fun r => CRet r))
                  else CRet None)))))))).

Inductive cl_result := ClOk | ClErr.
Inductive cl :=
| ClStart
| ClRead (c : conn)
| ClEnd (r : cl_result).

(** bin/client.rs:213-235: one round. The output of the step is printed, not sent. *)
Definition cl_step (c : conn) (input : option bytes) : cl :=
  match step_line c (option_map trim input) with
  | (Ok s, _, c') => if running s then ClRead c' else ClEnd ClOk
  | _ => ClEnd ClErr
  end.

(** bin/client.rs:140-238 main with a connection: start of the session with the mechanism of
    RSASL_MECH, the name of the mechanism, then the loop. *)
Definition cl_connect (e : env) (vars : variables) : option conn :=
  match vars (lit "RSASL_MECH") with
  | Some mech =>
      match mn_parse mech with
      | Ok name =>
          match client_start builtin_registry false default_prefer [name] with
          | Ok (i, d) =>
              fresh e (mk_app (interop_client_cb vars) (fun _ _ _ => VRet None) builtin_registry)
                SClient i d
          | _ => None
          end
      | _ => None
      end
  | None => None
  end.
Definition bin_client (e : env) (vars : variables) (t : cl) : act cl cl_result :=
  match t with
  | ClStart =>
      match cl_connect e vars with
      | Some c => AWrite (d_name (cn_mech c) ++ nl)
                    (if are_we_first SClient (cn_mech c) then cl_step c None else ClRead c)
      | None => AExit ClErr
      end
  | ClRead c =>
      ALine (fun l => match l with
                      | LText line => cl_step c (Some line)
                      | LEnd => cl_step c (Some [])
                      | LBad => ClEnd ClErr
                      end)
  | ClEnd r => AExit r
  end.
