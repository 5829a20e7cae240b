(** The world a mechanism step runs in: writer, user callback, validation slot,
    random numbers and the libraries rsasl calls. *)
From Verif Require Import Bytes Types.

(** Hash algorithms of the SCRAM family. *)
Inductive alg := SHA1 | SHA256 | SHA512.

(** Output size of digest and HMAC in bytes. *)
Definition hlen (a : alg) : nat :=
  match a with SHA1 => 20 | SHA256 => 32 | SHA512 => 64 end.

(** What a writer answers to one write call: accept up to [n] bytes (0 allowed), fail, or
    report [ErrorKind::Interrupted]. *)
Inductive wresp := WAccept (n : nat) | WFail (n : nat) | WInterrupt.

(** Everything the application's callbacks can observe, oldest first. *)
Inductive event :=
| EvRequest (p : prop) (c : ctx)             (* callback asked to satisfy p *)
| EvAnswer (p : prop) (v : pval p)           (* mechanism's consumer run with v *)
| EvClosure (p : prop)                       (* closure given to satisfy_with evaluated *)
| EvAction (p : prop) (v : pval p) (c : ctx) (* action issued *)
| EvTaken (p : prop)                         (* callback took the action value *)
| EvValidate (c : ctx)                       (* validate callback invoked *)
| EvChan (name : bytes).                     (* protocol asked for channel binding data *)

Record world := mk_world {
  w_out : bytes;             (* bytes the writer received so far *)
  w_script : list wresp;     (* the writer's next answers; afterwards it accepts all *)
  w_trace : list event;
  w_rng : nat;               (* number of random draws so far *)
  w_val : option bytes       (* the session's validation value *)
}.

(** Result of the user's callback functions. *)
Definition cres := option serr.    (* None = Ok(()) *)

(** An arbitrary user callback: a sequence of calls on the [Request], every later step
    may depend on the results ([None] = Ok, [Some e] = Err e) of the earlier ones. *)
Inductive cbprog :=
| CRet (r : cres)
| CSatisfy (p : prop) (v : pval p) (k : cres -> cbprog)
| CSatisfyWith (p : prop) (f : serr + pval p) (k : cres -> cbprog)
| CGetAction (p : prop) (k : option (pval p) -> cbprog)
| CIs (p : prop) (k : bool -> cbprog).

(** An arbitrary validation callback; [t] identifies the Validation type, values are bytes. *)
Inductive vprog :=
| VRet (r : option verr)
| VFinalize (t : nat) (x : bytes) (k : vprog)
| VWith (t : nat) (f : verr + bytes) (k : option verr -> vprog)
| VIs (t : nat) (k : bool -> vprog).

(** Request kinds (callback.rs:266-290). *)
Inductive reqkind := RSatisfy (p : prop) | RAction (p : prop).

(** GSS library: contexts are identified by the history of operations on them. *)
Inductive gop :=
| GInit (target : bytes) | GAccept
| GStep (input : option bytes)
| GWrap (conf : bool) (msg : bytes)
| GUnwrap (msg : bytes).
Definition gctx := list gop.
(** CtxFlags: GSS_C_MUTUAL_FLAG, GSS_C_CONF_FLAG, GSS_C_INTEG_FLAG. *)
Record gflags := mk_gflags { gf_mutual : bool; gf_conf : bool; gf_integ : bool }.

Record env := mk_env {
  e_sd : sdata;
  e_cb : list event -> sdata -> ctx -> reqkind -> cbprog;
  e_vcb : list event -> sdata -> ctx -> vprog;
  e_vtag : nat;                                  (* the session's Validation type *)
  e_chan : bytes -> option bytes;                (* ChannelBindingCallback *)
  e_rng : nat -> N;
  e_hash : alg -> bytes -> bytes;
  e_hmac : alg -> bytes -> bytes -> bytes;       (* key, message *)
  e_pbkdf2 : alg -> bytes -> bytes -> N -> bytes; (* password, salt, iterations *)
  e_saslprep : bytes -> option bytes;
  e_json_to : oberr -> bytes;
  e_json_from : bytes -> option oberr;
  e_gss_name : bytes -> bool;                    (* Name::new succeeds *)
  e_gss_cred : bool;                             (* OidSet / Cred::acquire succeed *)
  e_gss_step : gctx -> option bytes -> option (option bytes); (* None = Err *)
  e_gss_complete : gctx -> bool;
  e_gss_flags : gctx -> option gflags;
  e_gss_wrap : gctx -> bool -> bytes -> option bytes;
  e_gss_unwrap : gctx -> bytes -> option bytes
}.

(** Output sizes of the crypto functions: the only thing ever assumed about them. *)
Definition crypto_ok (e : env) : Prop :=
  (forall a x, length (e_hash e a x) = hlen a) /\
  (forall a k x, length (e_hmac e a k x) = hlen a) /\
  (forall a p s i, length (e_pbkdf2 e a p s i) = hlen a).

(** * The step monad

    A step may use local variables [L] that closures passed to callbacks mutate. Local
    variables and world keep their changes when a step fails or panics. *)
Definition M (L A : Type) : Type := L -> world -> res serr A * L * world.

Definition ret {L A} (a : A) : M L A := fun l w => (Ok a, l, w).
Definition fail {L A} (e : serr) : M L A := fun l w => (Err e, l, w).
Definition panic {L A} : M L A := fun l w => (Panic, l, w).
Definition bind {L A B} (m : M L A) (f : A -> M L B) : M L B :=
  fun l w =>
    match m l w with
    | (Ok a, l', w') => f a l' w'
    | (Err e, l', w') => (Err e, l', w')
    | (Panic, l', w') => (Panic, l', w')
    end.
Definition getl {L} : M L L := fun l w => (Ok l, l, w).
Definition setl {L} (l : L) : M L unit := fun _ w => (Ok tt, l, w).
Definition of_res {L A} (r : res serr A) : M L A := fun l w => (r, l, w).

Declare Scope m_scope.
Delimit Scope m_scope with m.
Notation "x <- m ;; k" := (bind m (fun x => k))
  (at level 61, m at next level, right associativity) : m_scope.
Notation "' p <- m ;; k" := (bind m (fun p => k))
  (at level 61, p pattern, m at next level, right associativity) : m_scope.
Notation "m ;;; k" := (bind m (fun _ => k)) (at level 61, right associativity) : m_scope.
Open Scope m_scope.

(** Run [m] with its own local variables; they are returned on success. *)
Definition locally {L L' A} (l0 : L') (m : M L' A) : M L (A * L') :=
  fun l w => match m l0 w with
             | (Ok a, l', w') => (Ok (a, l'), l, w')
             | (Err e, _, w') => (Err e, l, w')
             | (Panic, _, w') => (Panic, l, w')
             end.

(** * Writing *)

(** One [Write::write] / [write_vectored] call offering [data]: the writer takes a prefix.
    A vectored write of several buffers offers their concatenation (how a sink splits a
    short write over the buffers is unobservable beyond the number of bytes taken). *)
Definition write1 (data : bytes) (w : world) : (ioerr + option nat) * world :=
  match w_script w with
  | [] => (inr (Some (length data)),
           mk_world (w_out w ++ data) [] (w_trace w) (w_rng w) (w_val w))
  | WAccept n :: s =>
      let k := Nat.min n (length data) in
      (inr (Some k), mk_world (w_out w ++ firstn k data) s (w_trace w) (w_rng w) (w_val w))
  | WFail n :: s => (inl (IoOther n), mk_world (w_out w) s (w_trace w) (w_rng w) (w_val w))
  | WInterrupt :: s => (inr None, mk_world (w_out w) s (w_trace w) (w_rng w) (w_val w))
  end.

(** std [Write::write_all]: retries on Interrupted, WriteZero error on Ok(0). Recursion on
    the writer's script plus one final round. *)
Fixpoint write_all_fuel (fuel : nat) (data : bytes) (w : world) : res serr unit * world :=
  match data with
  | [] => (Ok tt, w)
  | _ =>
      match fuel with
      | O => (Panic, w) (* excluded: see World lemmas, fuel is always sufficient *)
      | S f =>
          match write1 data w with
          | (inl e, w') => (Err (EIo e), w')
          | (inr None, w') => write_all_fuel f data w'
          | (inr (Some O), w') => (Err (EIo IoWriteZero), w')
          | (inr (Some k), w') => write_all_fuel f (skipn k data) w'
          end
      end
  end.

Definition write_all {L} (data : bytes) : M L unit :=
  fun l w =>
    match write_all_fuel (S (length (w_script w))) data w with
    | (r, w') => (r, l, w')
    end.

(** * vectored_io.rs *)

(** vectored_io.rs:33-39: number of leading buffers wholly covered by [len] bytes and their
    total length. *)
Fixpoint count_removed (bufs : list bytes) (acc len : nat) : nat * nat :=
  match bufs with
  | [] => (0, acc)
  | b :: r =>
      if Nat.ltb len (acc + length b) then (0, acc)
      else match count_removed r (acc + length b) len with
           | (n, a) => (S n, a)
           end
  end.

(** vectored_io.rs:18-47 write_vectored_inner. The remaining buffers [data[skip..]] are the
    state ([skip] and the fixed-size array are folded into dropping buffers from the list;
    simplification). An interrupted write is an error here ([?] at line 28). The marker
    [IoOther 0] for Interrupted is arbitrary. *)
Definition vec_inner (bufs : list bytes) (w : world) : (ioerr + (nat * list bytes)) * world :=
  match bufs with
  | [] => (inr (0, []), w)
  | _ =>
      match write1 (concat bufs) w with
      | (inl e, w') => (inl e, w')
      | (inr None, w') => (inl (IoOther 0), w')
      | (inr (Some len), w') =>
          let '(removed, acc) := count_removed bufs 0 len in
          match skipn removed bufs with
          | [] => (inr (len, []), w')
          | b :: r => (inr (len, skipn (len - acc) b :: r), w')
          end
      end
  end.

(** vectored_io.rs:49-70 write_all_vectored: the while loop; stops with Ok(written) when a
    write returns Ok(0). *)
Fixpoint vec_loop (fuel : nat) (bufs : list bytes) (written : nat) (w : world)
  : res serr nat * world :=
  match fuel with
  | O => (Panic, w) (* excluded: fuel is always sufficient *)
  | S f =>
      match vec_inner bufs w with
      | (inl e, w') => (Err (EIo e), w')
      | (inr (O, _), w') => (Ok written, w')
      | (inr (len, []), w') => (Ok (written + len), w')
      | (inr (len, bufs'), w') => vec_loop f bufs' (written + len) w'
      end
  end.

Definition write_all_vectored {L} (bufs : list bytes) : M L nat :=
  fun l w =>
    match bufs with
    | [] => (Ok 0, l, w)
    | _ => match vec_loop (S (S (length (w_script w)))) bufs 0 w with
           | (r, w') => (r, l, w')
           end
    end.

(** * Random numbers *)

(** One draw from the random stream. *)
Definition draw {L} (e : env) : M L N :=
  fun l w => (Ok (e_rng e (w_rng w)), l,
              mk_world (w_out w) (w_script w) (w_trace w) (S (w_rng w)) (w_val w)).

Fixpoint draws {L} (e : env) (n : nat) : M L (list N) :=
  match n with
  | O => ret []
  | S k => (x <- draw e ;; r <- draws e k ;; ret (x :: r))%m
  end.

(** * Callbacks *)

Definition add_event (ev : event) (w : world) : world :=
  mk_world (w_out w) (w_script w) (w_trace w ++ [ev]) (w_rng w) (w_val w).

Definition log {L} (ev : event) : M L unit := fun l w => (Ok tt, l, add_event ev w).

(** callback.rs:221-231 ClosureCR: [closure: Option<ClosureCRState>]. *)
Inductive closure_cr (G : Type) := CrOpen | CrSatisfied (g : G) | CrTaken.
Arguments CrOpen {G}. Arguments CrSatisfied {G}. Arguments CrTaken {G}.

(** callback.rs:257-263 ClosureCR::satisfy: takes the stored state; runs the closure only if
    it was still open, and stores its value. If the closure fails, or if the request had
    been satisfied before, the state stays taken. *)
Definition cr_satisfy {L G} (q : prop) (f : pval q -> M L G) (st : closure_cr G)
    (v : pval q) (l : L) (w : world) : res serr unit * closure_cr G * L * world :=
  match st with
  | CrOpen =>
      match (log (EvAnswer q v) ;;; f v) l w with
      | (Ok g, l', w') => (Ok tt, CrSatisfied g, l', w')
      | (Err e, l', w') => (Err e, CrTaken, l', w')
      | (Panic, l', w') => (Panic, CrTaken, l', w')
      end
  | CrSatisfied _ | CrTaken => (Ok tt, CrTaken, l, w)
  end.

(** callback.rs:415-425 Request::satisfy, 489-503 satisfy_with, 349-357 get_action, 317 is,
    on a satisfy request for [q] with consumer [f]; the user's program is interpreted call
    by call. A panic in the consumer unwinds through the callback. *)
Fixpoint run_satisfy {L G} (q : prop) (f : pval q -> M L G) (p : cbprog)
    (st : closure_cr G) (l : L) (w : world) : res serr cres * closure_cr G * L * world :=
  match p with
  | CRet r => (Ok r, st, l, w)
  | CSatisfy p v k =>
      match @castp p q v with
      | None => run_satisfy q f (k None) st l w
      | Some v' =>
          match cr_satisfy q f st v' l w with
          | (Ok _, st', l', w') => run_satisfy q f (k (Some ECbEarlyReturn)) st' l' w'
          | (Err e, st', l', w') => run_satisfy q f (k (Some e)) st' l' w'
          | (Panic, st', l', w') => (Panic, st', l', w')
          end
      end
  | CSatisfyWith p c k =>
      match prop_eq_dec p q with
      | right _ => run_satisfy q f (k None) st l w
      | left _ =>
          let w := add_event (EvClosure p) w in
          match c with
          | inl e => run_satisfy q f (k (Some e)) st l w
          | inr v =>
              match @castp p q v with
              | None => run_satisfy q f (k None) st l w
              | Some v' =>
                  match cr_satisfy q f st v' l w with
                  | (Ok _, st', l', w') =>
                      run_satisfy q f (k (Some ECbEarlyReturn)) st' l' w'
                  | (Err e, st', l', w') => run_satisfy q f (k (Some e)) st' l' w'
                  | (Panic, st', l', w') => (Panic, st', l', w')
                  end
              end
          end
      end
  | CGetAction p k => run_satisfy q f (k None) st l w
  | CIs p k => run_satisfy q f (k (if prop_eq_dec p q then true else false)) st l w
  end.

(** The same operations on an action request for [q] whose value slot is [slot]. *)
Fixpoint run_action (q : prop) (p : cbprog) (slot : option (pval q)) (tr : list event)
  : cres * option (pval q) * list event :=
  match p with
  | CRet r => (r, slot, tr)
  | CSatisfy p v k => run_action q (k None) slot tr
  | CSatisfyWith p c k => run_action q (k None) slot tr
  | CGetAction p k =>
      match prop_eq_dec p q, slot with
      | left e, Some v =>
          run_action q (k (Some (eq_rect q pval v p (eq_sym e)))) None (tr ++ [EvTaken q])
      | _, _ => run_action q (k None) slot tr
      end
  | CIs p k => run_action q (k (if prop_eq_dec p q then true else false)) slot tr
  end.

(** session.rs:319-329 MechanismData::callback: EarlyReturn counts as success. *)
Definition mask_early (r : cres) : cres :=
  match r with
  | Some ECbEarlyReturn => None
  | r => r
  end.

(** session.rs:359-376 maybe_need_with; [closurecr.try_unwrap()] callback.rs:240-246. *)
Definition maybe_need_with {L G} (e : env) (q : prop) (c : ctx) (f : pval q -> M L G)
  : M L (option G) :=
  fun l w =>
    let prog := e_cb e (w_trace w) (e_sd e) c (RSatisfy q) in
    let w0 := add_event (EvRequest q c) w in
    match run_satisfy q f prog CrOpen l w0 with
    | (Ok r, st, l', w') =>
        match mask_early r with
        | None | Some ECbNoValue =>
            (Ok (match st with CrSatisfied g => Some g | _ => None end), l', w')
        | Some err => (Err err, l', w')
        end
    | (Err err, _, l', w') => (Err err, l', w')
    | (Panic, _, l', w') => (Panic, l', w')
    end.

(** session.rs:350-357 need_with. *)
Definition need_with {L G} (e : env) (q : prop) (c : ctx) (f : pval q -> M L G) : M L G :=
  (o <- maybe_need_with e q c f ;;
   match o with Some g => ret g | None => fail (ECbNoCallback q) end)%m.

(** session.rs:331-348 action. *)
Definition action {L} (e : env) (q : prop) (c : ctx) (v : pval q) : M L unit :=
  fun l w =>
    let prog := e_cb e (w_trace w) (e_sd e) c (RAction q) in
    match run_action q prog (Some v) (w_trace w ++ [EvAction q v c]) with
    | (r, slot, tr) =>
        let w' := mk_world (w_out w) (w_script w) tr (w_rng w) (w_val w) in
        match mask_early r with
        | Some err => (Err err, l, w')
        | None => match slot with
                  | Some _ => (Err (ECbNoCallback q), l, w')
                  | None => (Ok tt, l, w')
                  end
        end
    end.

(** session.rs:378-394 maybe_need_cb_data. *)
Definition maybe_need_cb_data {L G} (e : env) (name : bytes) (c : ctx)
    (f : bytes -> M L G) : M L (option G) :=
  (log (EvChan name) ;;;
   match e_chan e name with
   | Some d => g <- f d ;; ret (Some g)
   | None => maybe_need_with e PChannelBindings
               (and_provider (this_provider PChannelBindingName name) c) f
   end)%m.

(** session.rs:396-408 need_cb_data. *)
Definition need_cb_data {L G} (e : env) (name : bytes) (c : ctx) (f : bytes -> M L G)
  : M L G :=
  (o <- maybe_need_cb_data e name c f ;;
   match o with
   | Some g => ret g
   | None => fail (EMissingChannelBindingData name)
   end)%m.

(** validate.rs:137-164 Validate::is/finalize/with on the session's slot of type [tag]. *)
Fixpoint run_validate (tag : nat) (p : vprog) (slot : option bytes)
  : option verr * option bytes :=
  match p with
  | VRet r => (r, slot)
  | VFinalize t x k =>
      run_validate tag k
        (if Nat.eqb t tag then match slot with None => Some x | s => s end else slot)
  | VWith t f k =>
      if Nat.eqb t tag then
        match slot with
        | None => match f with
                  | inl e => run_validate tag (k (Some e)) slot
                  | inr x => run_validate tag (k None) (Some x)
                  end
        | Some _ => run_validate tag (k None) slot
        end
      else run_validate tag (k None) slot
  | VIs t k => run_validate tag (k (Nat.eqb t tag)) slot
  end.

(** session.rs:313-317 MechanismData::validate followed by [?] (error.rs From impl). *)
Definition validate {L} (e : env) (c : ctx) : M L unit :=
  fun l w =>
    let prog := e_vcb e (w_trace w) (e_sd e) c in
    match run_validate (e_vtag e) prog (w_val w) with
    | (r, slot) =>
        let w' := mk_world (w_out w) (w_script w) (w_trace w ++ [EvValidate c])
                           (w_rng w) slot in
        match r with
        | None => (Ok tt, l, w')
        | Some v => (Err (EValidation v), l, w')
        end
    end.
