(** Vocabulary for the client's preference function. *)
From Verif Require Import Bytes Types World Simple OAuth Scram Gssapi Session Registry
  Spec_Registry.

(** [l] is the list [reg] without the mechanisms that do not satisfy [P], in the same order. *)
Inductive picks (P : mechanism -> Prop) : list mechanism -> list mechanism -> Prop :=
| picks_nil : picks P [] []
| picks_take m reg l : P m -> picks P reg l -> picks P (m :: reg) (m :: l)
| picks_skip m reg l : ~ P m -> picks P reg l -> picks P (m :: reg) l.

(** The calls to the preference function, one for every mechanism of the list: starting with
    [a] as the mechanism preferred so far it ends with [a']. [Greater] keeps [a]. *)
Inductive calls (prefer : preference)
  : option mechanism -> list mechanism -> option mechanism -> Prop :=
| calls_nil a : calls prefer a [] a
| calls_keep a b l a' : prefer a b = Gt -> calls prefer a l a' -> calls prefer a (b :: l) a'
| calls_take a b l a' : prefer a b <> Gt -> calls prefer (Some b) l a' ->
    calls prefer a (b :: l) a'.

(** [cmp] is a total preorder. *)
Definition total_preorder (cmp : mechanism -> mechanism -> comparison) : Prop :=
  (forall a b, cmp b a = CompOpp (cmp a b)) /\
  (forall a b c, cmp a b <> Gt -> cmp b c <> Gt -> cmp a c <> Gt).

(** A preference function as callback.rs:98-110 asks for: it compares acceptable mechanisms
    like [cmp] and answers [Greater] for a mechanism that is not acceptable, also if there is
    nothing to compare it with. *)
Definition follows_rules (prefer : preference) (ok : mechanism -> Prop)
    (cmp : mechanism -> mechanism -> comparison) : Prop :=
  (forall a b, ~ ok b -> prefer a b = Gt) /\
  (forall b, ok b -> prefer None b <> Gt) /\
  (forall a b, ok a -> ok b -> prefer (Some a) b = cmp a b).

(** [m] is a greatest mechanism of [reg] among those satisfying [P], the last one if several
    compare equal. *)
Definition greatest (cmp : mechanism -> mechanism -> comparison) (P : mechanism -> Prop)
    (reg : list mechanism) (m : mechanism) : Prop :=
  exists l1 l2, reg = l1 ++ m :: l2 /\ P m /\
    (forall x, In x l1 -> P x -> cmp x m <> Gt) /\
    (forall x, In x l2 -> P x -> cmp x m = Lt).
