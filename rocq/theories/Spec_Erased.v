(** Specification vocabulary for type erasure. *)
From Verif Require Import Bytes Types World Erased.

(** Rust's guarantee for [TypeId::of]: different types have different ids. *)
Definition distinct_ids (tid : tag -> N) : Prop := forall a b, tid a = tid b -> a = b.

(** A provider written with [?]: it stops at the first value that was wanted. *)
Fixpoint chain (c : ctx) : provider :=
  match c with
  | [] => PDone
  | existT _ p v :: c => PRef p v (fun b => if b then PDone else chain c)
  end.

(** The calls a provider makes when it is asked for a reference ([m] false) or mutable reference to
    [q]: those for [q] break, others do not. *)
Fixpoint given_for (m : bool) (q : prop) (pr : provider) : list (pval q) :=
  match pr with
  | PDone => []
  | PRef p v k =>
      match (if m then None else @castp p q v) with
      | Some x => x :: given_for m q (k true)
      | None => given_for m q (k false)
      end
  | PMut p v k =>
      match (if m then @castp p q v else None) with
      | Some x => x :: given_for m q (k true)
      | None => given_for m q (k false)
      end
  end.
Definition last_of {A} (l : list A) : option A :=
  match rev l with x :: _ => Some x | [] => None end.

(** The action request for [q] after the callback. *)
Definition left_over (q : prop) (slot : option (pval q)) : erased :=
  mk_erased (Action q) (match slot with Some v => RSome (ptr q v) | None => RNone end).
