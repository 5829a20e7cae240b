(** Selection with mechanisms of other crates (feature [unstable_custom_mechanism]): any
    selector and any start function. *)
From Verif Require Import Bytes Types World Simple OAuth Scram Gssapi Session Registry.

(** registry.rs:295-306 trait Selector and enum Selection. [R] is [&'static Mechanism], [A] is
    [Box<dyn Authentication>]. A selector keeps a state of its own; [select] and [done] may
    change it. *)
Inductive gselection (R A : Type) : Type :=
| GNothing (T : Type) (s : T) (select : T -> bytes -> T * option R) (done : T -> T * option R)
    (finalize : T -> res sasl_err A)
| GChosen (r : R).
Arguments GNothing {R A}. Arguments GChosen {R A}.

(** registry.rs:52-67 Mechanism, as far as a client uses it: the statics of a program. *)
Record statics (R A : Type) := mk_statics {
  st_client : R -> option (res sasl_err A);
  st_select : R -> bool -> option (gselection R A) }.
Arguments mk_statics {R A}. Arguments st_client {R A}. Arguments st_select {R A}.

(** registry.rs:308-314 Selection::select. *)
Definition g_select {R A} (g : gselection R A) (o : bytes) : gselection R A :=
  match g with
  | GNothing T s sel dn fin =>
      match sel s o with
      | (_, Some r) => GChosen r
      | (s', None) => GNothing T s' sel dn fin
      end
  | GChosen r => GChosen r
  end.

(** registry.rs:316-321 Selection::done. *)
Definition g_done {R A} (g : gselection R A) : gselection R A * option R :=
  match g with
  | GNothing T s sel dn fin => let '(s', o) := dn s in (GNothing T s' sel dn fin, o)
  | GChosen r => (GChosen r, Some r)
  end.

(** registry.rs:323-328 Selection::finalize. *)
Definition g_finalize {R A} (st : statics R A) (g : gselection R A) : res sasl_err A :=
  match g with
  | GNothing T s sel dn fin => fin s
  | GChosen r => match st_client st r with Some i => i | None => Panic end
  end.

(** registry.rs:249-262: the fold. *)
Definition g_fold {R A} (prefer : option R -> R -> comparison)
    (acc : option (gselection R A * R)) (gr : gselection R A * R)
  : option (gselection R A * R) :=
  match prefer (option_map snd acc) (snd gr) with
  | Gt => acc
  | Eq | Lt => Some gr
  end.

(** registry.rs:230-267 Registry::select. *)
Definition g_registry_select {R A} (st : statics R A) (reg : list R) (cb : bool)
    (offered : list bytes) (prefer : option R -> R -> comparison) : res sasl_err (A * R) :=
  let selectors := filter_map (fun m => st_select st m cb) reg in
  let selectors := fold_left (fun ss o => map (fun g => g_select g o) ss) offered selectors in
  let dones := filter_map (fun g => match g_done g with
                                    | (g', Some m) => Some (g', m)
                                    | (_, None) => None
                                    end) selectors in
  match fold_left (g_fold prefer) dones None with
  | None => Err NoSharedMechanism
  | Some (g, m) =>
      match g_finalize st g with
      | Ok i => Ok (i, m)
      | Err x => Err x
      | Panic => Panic
      end
  end.

(** The statics of rsasl itself: Matches (registry.rs:330-358), the selectors of SCRAM
    (scram/mechinfo.rs:52-87, 157-192, 262-297) and the [select:] and [client:] functions. *)
Definition matches (d : mechanism) : gselection mechanism inst :=
  GNothing unit tt
    (fun s o => (s, if bytes_eqb o (d_name d) then Some d else None))
    (fun s => (s, None))
    (fun _ => match d_client d with Some i => Ok i | None => Panic end).
Definition scram_selector (a : alg) (now : scramsel) : gselection mechanism inst :=
  GNothing scramsel now
    (fun s o => (if bytes_eqb o (scram_name a) then match s with SelNo => SelBare | x => x end
                 else if bytes_eqb o (scram_plus_name a) then SelPlus else s, None))
    (fun s => (s, match s with SelNo => None | _ => Some (DScram a false) end))
    (fun s => match s with
              | SelNo => Panic
              | SelBare => Ok (Builtin (scram_client_new a false))
              | SelPlus => Ok (Builtin (scram_client_new a true))
              end).
Definition own_statics : statics mechanism inst :=
  mk_statics
    (fun d => option_map Ok (d_client d))
    (fun d cb => match d with
                 | DScram a false => Some (if cb then scram_selector a SelNo else matches d)
                 | DScram a true => if cb then Some (matches d) else None
                 | _ => Some (matches d)
                 end).
