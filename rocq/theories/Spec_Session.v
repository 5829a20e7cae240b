(** Specification vocabulary for whole sessions. *)
From Verif Require Import Bytes Base64 Types World CallbackSpec Simple OAuth Scram Gssapi
  Session Registry Spec_Simple.

(** * Validation *)

(** Calls a validation callback makes, with what they returned to it. *)
Inductive vcall :=
| KFinalize (t : nat) (x : bytes)
| KWith (t : nat) (f : verr + bytes) (ran : bool) (r : option verr)
| KVIs (t : nat) (b : bool).

(** The program makes exactly these calls, is given these answers and returns [x]. *)
Inductive vfollows : vprog -> list vcall -> option verr -> Prop :=
| vf_ret x : vfollows (VRet x) [] x
| vf_fin t y k cs x : vfollows k cs x -> vfollows (VFinalize t y k) (KFinalize t y :: cs) x
| vf_with t f k ran r cs x :
    vfollows (k r) cs x -> vfollows (VWith t f k) (KWith t f ran r :: cs) x
| vf_is t k b cs x : vfollows (k b) cs x -> vfollows (VIs t k) (KVIs t b :: cs) x.

(** How the calls are answered for validation type [tag]; [full]: there already is a value.
    A closure given to [with] runs only for the right type and an empty slot. *)
Inductive vanswers (tag : nat) : bool -> list vcall -> Prop :=
| va_nil full : vanswers tag full []
| va_fin full t x cs :
    vanswers tag (full || Nat.eqb t tag) cs -> vanswers tag full (KFinalize t x :: cs)
| va_skip full t f cs : full = true \/ t <> tag ->
    vanswers tag full cs -> vanswers tag full (KWith t f false None :: cs)
| va_ran x cs : vanswers tag true cs -> vanswers tag false (KWith tag (inr x) true None :: cs)
| va_err e cs :
    vanswers tag false cs -> vanswers tag false (KWith tag (inl e) true (Some e) :: cs)
| va_is full t cs : vanswers tag full cs -> vanswers tag full (KVIs t (Nat.eqb t tag) :: cs).

(** The first value finalised for [tag]. *)
Fixpoint first_final (tag : nat) (cs : list vcall) : option bytes :=
  match cs with
  | [] => None
  | KFinalize t x :: r => if Nat.eqb t tag then Some x else first_final tag r
  | KWith t (inr x) _ _ :: r => if Nat.eqb t tag then Some x else first_final tag r
  | _ :: r => first_final tag r
  end.

(** The validate call for context [c] at the point where [tr] had been observed, with an
    empty slot, produces [o]. *)
Definition produces (e : env) (tr : list event) (c : ctx) (o : option bytes) : Prop :=
  exists cs x, vfollows (e_vcb e tr (e_sd e) c) cs x /\ vanswers (e_vtag e) false cs /\
    o = first_final (e_vtag e) cs.

(** The first value produced by the validate calls among the events [evs] observed after
    [tr]. *)
Inductive first_produced (e : env) : list event -> list event -> option bytes -> Prop :=
| fp_nil tr : first_produced e tr [] None
| fp_other tr ev evs o : (forall c, ev <> EvValidate c) ->
    first_produced e (tr ++ [ev]) evs o -> first_produced e tr (ev :: evs) o
| fp_none tr c evs o : produces e tr c None ->
    first_produced e (tr ++ [EvValidate c]) evs o -> first_produced e tr (EvValidate c :: evs) o
| fp_some tr c evs x : produces e tr c (Some x) ->
    first_produced e tr (EvValidate c :: evs) (Some x).

(** Any number of calls of step, encode and decode, with any input, writer and outcome. *)
Inductive calls (e : env) : session -> session -> Prop :=
| ca_nil s : calls e s s
| ca_step s s1 s2 input script r out :
    step e s input script = (r, out, s1) -> calls e s1 s2 -> calls e s s2
| ca_encode s s1 s2 input script r out :
    session_encode e s input script = (r, out, s1) -> calls e s1 s2 -> calls e s s2
| ca_decode s s1 s2 input script r out :
    session_decode e s input script = (r, out, s1) -> calls e s1 s2 -> calls e s s2.

(** * Security layers *)

(** A session just started as client or server of mechanism [m]. *)
Definition started (reg : list mechanism) (m : mechanism) (s : session) : Prop :=
  (d_client m = Some (Builtin (s_mech s)) \/ d_server reg m = Some (Builtin (s_mech s)) \/
   (exists cb offered prefer, client_start reg cb prefer offered
        = Ok (Builtin (s_mech s), m))) /\
  s_val s = None.

(** Calls of which no step returned Finished. *)
Inductive unfinished (e : env) : session -> session -> Prop :=
| un_nil s : unfinished e s s
| un_step s s1 s2 input script r out : (forall b, r <> Ok (Finished b)) ->
    step e s input script = (r, out, s1) -> unfinished e s1 s2 -> unfinished e s s2
| un_encode s s1 s2 input script r out :
    session_encode e s input script = (r, out, s1) -> unfinished e s1 s2 -> unfinished e s s2
| un_decode s s1 s2 input script r out :
    session_decode e s input script = (r, out, s1) -> unfinished e s1 s2 -> unfinished e s s2.

(** There is no security layer: nothing can be encoded or decoded. *)
Definition layerless (e : env) (s : session) : Prop :=
  has_security_layer s = false /\
  forall input script,
    session_encode e s input script = (Err ENoSecurityLayer, [], s) /\
    session_decode e s input script = (Err ENoSecurityLayer, [], s).

(** * Writers *)

(** Mechanisms that write with [write_all] only. *)
Definition plain_writes (m : mech) : bool :=
  match m with
  | XXOAuth2C _ | XOAuthBearerC _ | XScramC _ _ | XScramS _ _ => false
  | _ => true
  end.
