(** typed.rs, context.rs, callback.rs and validate.rs: type erasure, with the unchecked casts. *)
From Verif Require Import Bytes Types World.

(** property.rs, mechanisms/*/properties.rs, anonymous/mechinfo.rs: the Rust types of values.
    [KOther n] is the type of the values of [PCustom n], of which nothing is known. *)
Inductive kind :=
| KStr | KBytes | KPairs | KOAuthResult | KOAuthError | KStrResult | KU32 | KStored | KCached | KLayer | KOther (n : nat).
Definition kind_eq_dec (a b : kind) : {a = b} + {a <> b}.
Proof. decide equality. apply Nat.eq_dec. Defined.

(** [<P as Property>::Value]. *)
Definition kind_of (p : prop) : kind :=
  match p with
  | PPassword | PChannelBindings | PSalt | PSaltedPassword => KBytes
  | POAuthBearerKV => KPairs
  | POAuthBearerValidate => KOAuthResult
  | POAuthBearerErrored => KOAuthError
  | PXOAuth2Validate => KStrResult
  | PIterations => KU32
  | PScramStoredPassword => KStored
  | PScramCachedPassword => KCached
  | PGssSecurityLayer => KLayer
  | PCustom n => KOther n
  | _ => KStr
  end.
Definition kval (k : kind) : Type :=
  match k with
  | KPairs => list (bytes * bytes)
  | KOAuthResult => option oberr
  | KOAuthError => oberr
  | KStrResult => option bytes
  | KU32 => N
  | KStored => stored
  | KCached => cached
  | KLayer => seclayer
  | KStr | KBytes | KOther _ => bytes
  end.
(** Values of a property as values of its Rust type and back. *)
Definition to_kind (p : prop) : pval p -> kval (kind_of p) :=
  match p with
  | PAuthId => id | PAuthzId => id | PPassword => id | PRealm => id | PHostname => id | PService => id
  | PChannelBindings => id | PChannelBindingName => id | POverrideCBType => id
  | POAuthBearerToken => id | POAuthBearerKV => id | POAuthBearerValidate => id | POAuthBearerErrored => id
  | PXOAuth2Validate => id | PXOAuth2Error => id | PAnonymousToken => id
  | PIterations => id | PSalt => id | PScramStoredPassword => id | PScramCachedPassword => id
  | PSaltedPassword => id | PGssService => id | PGssSecurityLayer => id | PCustom _ => id
  end.
Definition of_kind (p : prop) : kval (kind_of p) -> pval p :=
  match p with
  | PAuthId => id | PAuthzId => id | PPassword => id | PRealm => id | PHostname => id | PService => id
  | PChannelBindings => id | PChannelBindingName => id | POverrideCBType => id
  | POAuthBearerToken => id | POAuthBearerKV => id | POAuthBearerValidate => id | POAuthBearerErrored => id
  | PXOAuth2Validate => id | PXOAuth2Error => id | PAnonymousToken => id
  | PIterations => id | PSalt => id | PScramStoredPassword => id | PScramCachedPassword => id
  | PSaltedPassword => id | PGssService => id | PGssSecurityLayer => id | PCustom _ => id
  end.

(** typed.rs:12-36, context.rs:70-77, callback.rs:266-276, validate.rs:109-111: the tags. *)
Inductive unsized := DemandTag (p : prop) | Satisfy (p : prop).
Inductive tag :=
| Ref (u : unsized) | RefMut (u : unsized) | Optional (t : tag) | Action (p : prop) | Valid (v : nat).

(** What is in memory. Trait objects [dyn CallbackRequest<T>] know the type they take. *)
Inductive raw :=
| RVal (k : kind) (x : kval k) | RPtr (r : raw) | RNone | RSome (r : raw) | RRequest (k : kind) | RValid (v : nat) (x : bytes).

(** [<T as Type>::Reified]: whether memory holds a value of this type. *)
Definition fits_unsized (u : unsized) (r : raw) : bool :=
  match u, r with
  | DemandTag p, RVal k _ => if kind_eq_dec k (kind_of p) then true else false
  | Satisfy p, RRequest k => if kind_eq_dec k (kind_of p) then true else false
  | _, _ => false
  end.
Fixpoint fits (t : tag) (r : raw) : bool :=
  match t, r with
  | (Ref u | RefMut u), RPtr r => fits_unsized u r
  | Optional _, RNone => true
  | Optional t, RSome r => fits t r
  | Action _, RNone => true
  | Action p, RSome (RPtr (RVal k _)) => if kind_eq_dec k (kind_of p) then true else false
  | Valid _, RNone => true
  | Valid v, RSome (RValid w _) => Nat.eqb v w
  | _, _ => false
  end.

(** typed.rs:53-66 [dyn Erased]: a [Tagged<T>] with [tag_id] of T in its vtable. *)
Record erased := mk_erased { er_tag : tag; er_raw : raw }.

(** Undefined behaviour, which a wrong cast leads to. *)
Inductive outcome (A : Type) := Fine (a : A) | UB.
Arguments Fine {A}. Arguments UB {A}.

Section ids.
(** [TypeId::of]. *)
Variable tid : tag -> N.

(** typed.rs:69-71. *)
Definition er_is (t : tag) (e : erased) : bool := N.eqb (tid t) (tid (er_tag e)).
(** typed.rs:74-80: the memory seen as a [Tagged<T>]. *)
Definition downcast_mut (t : tag) (e : erased) : outcome (option raw) :=
  if er_is t e then if fits t (er_raw e) then Fine (Some (er_raw e)) else UB else Fine None.

(** ** context.rs *)

(** context.rs:86-90 Demand::new. *)
Definition demand_new (t : tag) (opt : raw) : erased := mk_erased (Optional t) opt.
(** context.rs:97-104: whether it broke. *)
Definition demand_provide (t : tag) (value : raw) (e : erased) : outcome (bool * erased) :=
  match downcast_mut (Optional t) e with
  | Fine (Some _) => Fine (true, mk_erased (er_tag e) (RSome value))
  | Fine None => Fine (false, e)
  | UB => UB
  end.
Definition ptr (p : prop) (v : pval p) : raw := RPtr (RVal (kind_of p) (to_kind p v)).

(** What a provider does with a demand: context.rs:107-118 provide_ref and provide_mut; the rest may
    depend on whether these broke. *)
Inductive provider :=
| PDone
| PRef (p : prop) (v : pval p) (k : bool -> provider)
| PMut (p : prop) (v : pval p) (k : bool -> provider).
Fixpoint run_provider (pr : provider) (e : erased) : outcome erased :=
  match pr with
  | PDone => Fine e
  | PRef p v k =>
      match demand_provide (Ref (DemandTag p)) (ptr p v) e with
      | Fine (b, e) => run_provider (k b) e
      | UB => UB
      end
  | PMut p v k =>
      match demand_provide (RefMut (DemandTag p)) (ptr p v) e with
      | Fine (b, e) => run_provider (k b) e
      | UB => UB
      end
  end.

(** Reading [Option<&P::Value>]. *)
Definition read_option (p : prop) (r : raw) : outcome (option (pval p)) :=
  match r with
  | RNone => Fine None
  | RSome (RPtr (RVal k x)) =>
      match kind_eq_dec k (kind_of p) with
      | left E => Fine (Some (of_kind p (eq_rect k kval x (kind_of p) E)))
      | right _ => UB
      end
  | _ => UB
  end.
(** context.rs:168-172 get_ref, 179-183 get_mut (with what [provide_mut] does). *)
Definition er_get_ref (pr : provider) (p : prop) : outcome (option (pval p)) :=
  match run_provider pr (demand_new (Ref (DemandTag p)) RNone) with
  | Fine e => read_option p (er_raw e)
  | UB => UB
  end.
Definition er_get_mut (pr : provider) (p : prop) : outcome (option (pval p)) :=
  match run_provider pr (demand_new (RefMut (DemandTag p)) RNone) with
  | Fine e => read_option p (er_raw e)
  | UB => UB
  end.

(** ** callback.rs *)

(** callback.rs:292-303 with session.rs:339, 368-369: the two requests for [q]. *)
Definition request_satisfy (q : prop) : erased := mk_erased (RefMut (Satisfy q)) (RPtr (RRequest (kind_of q))).
Definition request_action (q : prop) (v : pval q) : erased := mk_erased (Action q) (RSome (ptr q v)).

(** callback.rs:318-320 Request::is. *)
Definition request_is (p : prop) (e : erased) : bool := er_is (RefMut (Satisfy p)) e || er_is (Action p) e.

(** callback.rs:349-357 get_action: takes the value. *)
Definition er_get_action (p : prop) (e : erased) : outcome (option (pval p) * erased) :=
  match downcast_mut (Action p) e with
  | Fine (Some r) =>
      match read_option p r with
      | Fine o => Fine (o, mk_erased (er_tag e) RNone)
      | UB => UB
      end
  | Fine None => Fine (None, e)
  | UB => UB
  end.

(** callback.rs:415-425 satisfy, 489-503 satisfy_with: the trait object in case it is one of [p]; calling it is
    [cr_satisfy] for the property [q] it was made for, on a value of type [p]. *)
Definition the_request (p : prop) (e : erased) : outcome (option kind) :=
  match downcast_mut (RefMut (Satisfy p)) e with
  | Fine (Some (RPtr (RRequest k))) => Fine (Some k)
  | Fine None => Fine None
  | _ => UB
  end.
Definition pass (p q : prop) (v : pval p) : outcome (pval q) :=
  match kind_eq_dec (kind_of p) (kind_of q) with
  | left E => Fine (of_kind q (eq_rect (kind_of p) kval (to_kind p v) (kind_of q) E))
  | right _ => UB
  end.

(** A callback with a satisfy request made for [q] with consumer [f]. *)
Fixpoint er_satisfy {L G} (q : prop) (f : pval q -> M L G) (pr : cbprog) (e : erased)
    (st : closure_cr G) (l : L) (w : world) : outcome (res serr cres * closure_cr G * L * world) :=
  match pr with
  | CRet r => Fine (Ok r, st, l, w)
  | CSatisfy p v k =>
      match the_request p e with
      | UB => UB
      | Fine None => er_satisfy q f (k None) e st l w
      | Fine (Some _) =>
          match pass p q v with
          | UB => UB
          | Fine v' =>
              match cr_satisfy q f st v' l w with
              | (Ok _, st', l', w') => er_satisfy q f (k (Some ECbEarlyReturn)) e st' l' w'
              | (Err x, st', l', w') => er_satisfy q f (k (Some x)) e st' l' w'
              | (Panic, st', l', w') => Fine (Panic, st', l', w')
              end
          end
      end
  | CSatisfyWith p c k =>
      match the_request p e with
      | UB => UB
      | Fine None => er_satisfy q f (k None) e st l w
      | Fine (Some _) =>
          let w := add_event (EvClosure p) w in
          match c with
          | inl x => er_satisfy q f (k (Some x)) e st l w
          | inr v =>
              match pass p q v with
              | UB => UB
              | Fine v' =>
                  match cr_satisfy q f st v' l w with
                  | (Ok _, st', l', w') => er_satisfy q f (k (Some ECbEarlyReturn)) e st' l' w'
                  | (Err x, st', l', w') => er_satisfy q f (k (Some x)) e st' l' w'
                  | (Panic, st', l', w') => Fine (Panic, st', l', w')
                  end
              end
          end
      end
  | CGetAction p k =>
      match er_get_action p e with
      | Fine (o, e') => er_satisfy q f (k o) e' st l w
      | UB => UB
      end
  | CIs p k => er_satisfy q f (k (request_is p e)) e st l w
  end.

(** A callback with an action request; [tr] is the trace. At the end session.rs:340-347 looks whether
    the value is still there. *)
Fixpoint er_action (pr : cbprog) (e : erased) (tr : list event) : outcome (cres * erased * list event) :=
  match pr with
  | CRet r => Fine (r, e, tr)
  | CSatisfy p _ k | CSatisfyWith p _ k =>
      match the_request p e with
      | Fine None => er_action (k None) e tr
      | _ => UB                       (* no request to satisfy in memory *)
      end
  | CGetAction p k =>
      match er_get_action p e with
      | Fine (Some v, e') => er_action (k (Some v)) e' (tr ++ [EvTaken p])
      | Fine (None, e') => er_action (k None) e' tr
      | UB => UB
      end
  | CIs p k => er_action (k (request_is p e)) e tr
  end.

(** ** validate.rs *)

(** validate.rs:132-135, sasl.rs:153: the session's slot. *)
Definition validate_slot (t : nat) (slot : option bytes) : erased :=
  mk_erased (Valid t) (match slot with None => RNone | Some x => RSome (RValid t x) end).
(** validate.rs:148, 158 [if let Some(result @ Tagged(None))]. *)
Definition empty_slot (t : nat) (e : erased) : outcome bool :=
  match downcast_mut (Valid t) e with
  | Fine (Some RNone) => Fine true
  | Fine _ => Fine false
  | UB => UB
  end.
(** validate.rs:139-164 is, finalize, with. *)
Fixpoint er_validate (p : vprog) (e : erased) : outcome (option verr * erased) :=
  match p with
  | VRet r => Fine (r, e)
  | VFinalize t x k =>
      match empty_slot t e with
      | Fine b => er_validate k (if b then mk_erased (er_tag e) (RSome (RValid t x)) else e)
      | UB => UB
      end
  | VWith t f k =>
      match empty_slot t e with
      | Fine true => match f with
                     | inl x => er_validate (k (Some x)) e
                     | inr x => er_validate (k None) (mk_erased (er_tag e) (RSome (RValid t x)))
                     end
      | Fine false => er_validate (k None) e
      | UB => UB
      end
  | VIs t k => er_validate (k (er_is (Valid t) e)) e
  end.
End ids.
