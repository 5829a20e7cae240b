(** Mechanisms of other crates (feature [unstable_custom_mechanism]): anything a
    mechanism's [step] can do with what it is given. *)
From Verif Require Import Bytes Base64 Types World Session.
Open Scope m_scope.

(** mechanism.rs:24-62 Authentication::step: code with its own state [T] that may use the
    writer and the [MechanismData] it is given (session.rs:299-408), in any order, and go on
    with whatever these return. Every way through the code makes finitely many calls. The
    closures given to need_with and need_cb_data are code of the mechanism too. Flushing the
    writer is not modelled. *)
Inductive prog (T : Type) : Type -> Type :=
| GDone {A} (r : res serr A) : prog T A
| GGet {A} (k : T -> prog T A) : prog T A
| GSet {A} (t : T) (k : prog T A) : prog T A
| GWrite {A} (data : bytes) (k : ioerr + option nat -> prog T A) : prog T A
| GWriteAll {A} (data : bytes) (k : option serr -> prog T A) : prog T A
| GRandom {A} (k : N -> prog T A) : prog T A
| GNeed {A G} (q : prop) (c : ctx) (f : pval q -> prog T G) (k : serr + option G -> prog T A)
    : prog T A
| GChan {A G} (name : bytes) (c : ctx) (f : bytes -> prog T G)
    (k : serr + option G -> prog T A) : prog T A
| GAction {A} (q : prop) (c : ctx) (v : pval q) (k : option serr -> prog T A) : prog T A
| GValidate {A} (c : ctx) (k : option serr -> prog T A) : prog T A.
Arguments GDone {T A}. Arguments GGet {T A}. Arguments GSet {T A}. Arguments GWrite {T A}.
Arguments GWriteAll {T A}. Arguments GRandom {T A}. Arguments GNeed {T A G}.
Arguments GChan {T A G}. Arguments GAction {T A}. Arguments GValidate {T A}.

(** The caller of [m] looks at its [Result]; panics unwind. *)
Definition catch {L A} (m : M L A) : M L (serr + A) :=
  fun l w => match m l w with
             | (Ok a, l', w') => (Ok (inr a), l', w')
             | (Err x, l', w') => (Ok (inl x), l', w')
             | (Panic, l', w') => (Panic, l', w')
             end.
Definition failed {A} (r : serr + A) : option serr :=
  match r with inl x => Some x | inr _ => None end.

(** Writer::write (core2/std), one call. *)
Definition write_once {L} (data : bytes) : M L (ioerr + option nat) :=
  fun l w => match write1 data w with (r, w') => (Ok r, l, w') end.

(** Run the mechanism's code in a session. *)
Fixpoint exec {T A} (e : env) (p : prog T A) : M T A :=
  match p with
  | GDone r => of_res r
  | GGet k => t <- getl ;; exec e (k t)
  | GSet t k => setl t ;;; exec e k
  | GWrite data k => r <- write_once data ;; exec e (k r)
  | GWriteAll data k => r <- catch (write_all data) ;; exec e (k (failed r))
  | GRandom k => n <- draw e ;; exec e (k n)
  | GNeed q c f k =>
      r <- catch (maybe_need_with e q c (fun v => exec e (f v))) ;; exec e (k r)
  | GChan name c f k =>
      r <- catch (maybe_need_cb_data e name c (fun v => exec e (f v))) ;; exec e (k r)
  | GAction q c v k => r <- catch (action e q c v) ;; exec e (k (failed r))
  | GValidate c k => r <- catch (validate e c) ;; exec e (k (failed r))
  end.

(** An implementation of Authentication: what [step] does for which input. *)
Definition custom (T : Type) : Type := option bytes -> prog T state.

(** session.rs:38-45 Session with such a mechanism; see [session] in Session.v. *)
Record csession (T : Type) := mk_csession {
  cs_state : T;
  cs_trace : list event;
  cs_rng : nat;
  cs_val : option bytes }.
Arguments mk_csession {T}. Arguments cs_state {T}. Arguments cs_trace {T}.
Arguments cs_rng {T}. Arguments cs_val {T}.

(** session.rs:121-144 Session::step. *)
Definition cstep {T} (e : env) (m : custom T) (s : csession T) (input : option bytes)
    (script : list wresp) : res serr state * bytes * csession T :=
  match exec e (m input) (cs_state s)
          (mk_world [] script (cs_trace s) (cs_rng s) (cs_val s)) with
  | (r, t, w') => (r, w_out w', mk_csession t (w_trace w') (w_rng w') (w_val w'))
  end.

(** session.rs:228-245 Session::step64, for a writer that accepts everything; see [step64] in
    Session.v. *)
Definition cstep64 {T} (e : env) (m : custom T) (s : csession T) (input : option bytes)
  : res serr state * bytes * csession T :=
  match input with
  | Some input =>
      match decode input with
      | None => (Err EBase64, [], s)
      | Some i => match cstep e m s (Some i) [] with (r, out, s') => (r, encode out, s') end
      end
  | None => match cstep e m s None [] with (r, out, s') => (r, encode out, s') end
  end.

(** session.rs:159-161 Session::validation. *)
Definition cvalidation {T} (s : csession T) : option bytes * csession T :=
  (cs_val s, mk_csession (cs_state s) (cs_trace s) (cs_rng s) None).
