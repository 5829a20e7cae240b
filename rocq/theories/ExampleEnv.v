(** A small concrete environment for the examples beside the theorems. *)
From Verif Require Import Bytes Types World.

(** Constant-length stand-ins for the hash functions. *)
Definition ex_hash (a : alg) (x : bytes) : bytes :=
  firstn (hlen a) (x ++ repeat "h"%char (hlen a)).
Definition ex_hmac (a : alg) (k x : bytes) : bytes :=
  firstn (hlen a) (rev x ++ k ++ repeat "m"%char (hlen a)).
Definition ex_pbkdf2 (a : alg) (p s : bytes) (i : N) : bytes :=
  firstn (hlen a) (p ++ s ++ repeat "k"%char (hlen a)).

Definition ex_env (cb : reqkind -> cbprog) (vcb : ctx -> vprog)
    (chan : bytes -> option bytes) : env :=
  mk_env (mk_sdata (lit "TEST") SClient) (fun _ _ _ r => cb r) (fun _ _ c => vcb c) 0 chan
    (fun n => N.of_nat (7 * n + 3)) ex_hash ex_hmac ex_pbkdf2 (fun x => Some x)
    (fun o => ob_status o) (fun x => Some (mk_oberr x None None))
    (fun _ => true) true
    (fun c i => Some (Some (lit "tok"))) (fun c => Nat.leb 2 (length c))
    (fun _ => Some (mk_gflags true true true))
    (fun c conf m => Some m) (fun c m => Some m).

Definition no_vcb : ctx -> vprog := fun _ => VRet None.
Definition no_chan : bytes -> option bytes := fun _ => None.

(** A callback answering the listed properties, propagating errors. *)
Fixpoint ex_cb (vals : list entry) : cbprog :=
  match vals with
  | [] => CRet None
  | existT _ p v :: r =>
      CSatisfy p v (fun x => match x with Some e => CRet (Some e) | None => ex_cb r end)
  end.

Definition w0 : world := mk_world [] [] [] 0 None.
